(** What the reorganising operations do outside of the cases in which they do what they promise. *)
From Verif Require Export Spec_Outside Proof_ReorgMore.

(** A loop which reaches a panicking step. *)
Lemma loop_panics {St} (P : nat -> St -> Prop) n i f (s : St) :
  P i s -> (forall j s, i <= j < i + n -> P j s -> f j s = Panicked \/ exists s', f j s = Done s' /\ P (j + 1) s') ->
  (exists j, i <= j < i + n /\ forall s, P j s -> f j s = Panicked) -> loop n i f s = Panicked.
Proof.
  revert i s. induction n as [|n IH]; intros i s Hs Hstep (j & Hj & Hp); [lia|]. cbn [loop].
  destruct (Hstep i s ltac:(lia) Hs) as [-> |(s' & E & Hs')]; [done|]. rewrite E, bind_Done.
  destruct (decide (j = i)) as [-> |Hne]; [rewrite (Hp s Hs) in E; done|].
  apply IH; [done| |exists j; split; [lia|done]]. intros k t Hk. apply Hstep. lia.
Qed.

(** ** zero_pad_b with the option Center *)
Lemma padb_center {A} (z : A) d P T left right n :
  left + right = length P -> length P < n -> length T = n -> slice d 0 (length P) = Done P ->
  (s ← usub n right; s' ← usub (length P) right; src ← slice d s' (length P); t ← copy_into T s n src; src ← slice d 0 left;
   t ← copy_into t 0 left src; e ← usub n (length P); memzero z t left e) =
  if left <=? n - length P then Done (take left P ++ replicate (n - length P - left) z ++ take left (drop (n - length P) T) ++ drop left P) else Panicked.
Proof.
  intros Hlr Hn HT Hsl. apply slice_inv in Hsl as Hd. destruct Hd as (_ & Hdl & Hd & _). rewrite Nat.sub_0_r, drop_0 in Hd.
  assert (Hs : exists r, d = P ++ r) by (exists (drop (length P) d); rewrite Hd at 1; by rewrite take_drop). destruct Hs as (r & ->). clear Hd Hsl.
  assert (Hr : length (P ++ r) = length P + length r) by apply app_length.
  rewrite (usub_Done n right), (usub_Done (length P) right), (usub_Done n (length P)) by lia. rewrite !bind_Done.
  rewrite (slice_Done (P ++ r) (length P - right)), (slice_Done (P ++ r) 0 left) by lia. rewrite !bind_Done.
  assert (E1 : take (length P - (length P - right)) (drop (length P - right) (P ++ r)) = drop left P).
  { rewrite drop_app_le by lia. replace (length P - right) with left by lia. apply take_app_alt. by rewrite drop_length. }
  rewrite E1. rewrite copy_into_Done; [|lia|lia|rewrite drop_length; lia]. rewrite bind_Done, (drop_ge T) by lia. rewrite app_nil_r.
  assert (E2 : take (left - 0) (drop 0 (P ++ r)) = take left P).
  { rewrite Nat.sub_0_r, drop_0. apply take_app_le. lia. }
  rewrite E2. assert (L1 : length (take (n - right) T ++ drop left P) = n) by (rewrite app_length, take_length, drop_length; lia).
  rewrite bind_Done. rewrite copy_into_Done; [|lia|lia|rewrite take_length; lia]. rewrite !bind_Done, take_0, app_nil_l.
  destruct (left <=? n - length P) eqn:E.
  - rewrite memzero_Done; [|lia|rewrite app_length, drop_length, take_length; lia]. f_equal.
    rewrite take_app_alt by (rewrite take_length; lia). f_equal. f_equal.
    rewrite drop_app_ge by (rewrite take_length; lia). rewrite take_length, Nat.min_l by lia. rewrite drop_drop.
    replace (left + (n - length P - left)) with (n - length P) by lia.
    rewrite drop_app_le by (rewrite take_length; lia). f_equal.
    rewrite <- (take_drop (n - right) T) at 2. rewrite drop_app_le by (rewrite take_length; lia).
    rewrite take_app_alt; [done|]. rewrite drop_length, take_length. lia.
  - unfold memzero, assert_. rewrite E. done.
Qed.

Theorem zero_pad_b_center {A} (zero : A) b (v : dvec A) p n old :
  length p < n -> let h := length p - length p / 2 in let gap := n - length p in
  reals v p -> lends b v n -> borrow zero b n = Done old ->
  (gap < h -> zero_pad_b zero b v n Center = Panicked) /\
  (h <= gap -> exists v' b', zero_pad_b zero b v n Center = Done (v', b', Ok tt) /\ same_meta v v' /\
     reals v' (take h p ++ zeros zero (gap - h) ++ take h (drop gap old) ++ drop h p)).
Proof.
  intros Hn h gap [Hc Hv] Hb Ho. unfold zero_pad_b. rewrite Hc. cbv zeta. pose proof (vdata_inv v p Hv) as (Hl & _ & _). unfold len. rewrite Hl.
  destruct (n <=? length p) eqn:E; [lia|]. destruct (borrow_lends zero b v n Hb) as (T & ET & HT). rewrite Ho in ET. injection ET as <-.
  rewrite Ho, bind_Done. assert (Hsl : slice (elems v) 0 (length p) = Done p) by (unfold vdata in Hv; rewrite Hl in Hv; done).
  rewrite Nat.div_1_r, (usub_Done (length p)) by lia. rewrite bind_Done.
  pose proof (padb_center zero (elems v) p old h (length p / 2) n ltac:(lia) Hn HT Hsl) as HC.
  rewrite (usub_Done (length p)) in HC by lia. fold h. fold h in HC. rewrite HC. fold gap.
  split; intros Hg.
  - destruct (h <=? gap) eqn:E2; [lia|done].
  - destruct (h <=? gap) eqn:E2; [|lia]. rewrite bind_Done.
    set (q := take h p ++ _). assert (Hq : length q = n).
    { unfold q. rewrite !app_length, !take_length, replicate_length, !drop_length, HT. lia. }
    destruct (trade_vdata b v q n Hb Hq) as (v' & b' & H1 & H2 & H3).
    exists v', b'. destruct (trade b q (data v)) as [s b2]. apply pair_equal_spec in H1 as [<- <-]. split_and!; done.
Qed.

Theorem zero_pad_b_center_cplx {A} (zero : A) b (v : dvec A) p n old :
  length p < n -> let h := length p - length p / 2 in let gap := n - length p in
  cplx v p -> lends b v (2 * n) -> borrow zero b (2 * n) = Done (complex_to_array old) ->
  (gap < h -> zero_pad_b zero b v n Center = Panicked) /\
  (h <= gap -> exists v' b', zero_pad_b zero b v n Center = Done (v', b', Ok tt) /\ same_meta v v' /\
     cplx v' (take h p ++ zeros (zero, zero) (gap - h) ++ take h (drop gap old) ++ drop h p)).
Proof.
  intros Hn h gap [Hc Hv] Hb Ho. unfold zero_pad_b. rewrite Hc. cbv zeta. set (P := complex_to_array p) in *.
  assert (HP : length P = 2 * length p) by apply complex_to_array_length. pose proof (vdata_inv v P Hv) as (Hl & _ & _). unfold len. rewrite Hl.
  destruct (2 * n <=? length P) eqn:E; [lia|]. destruct (borrow_lends zero b v (2 * n) Hb) as (T & ET & HT). rewrite Ho in ET. injection ET as <-.
  rewrite Ho, bind_Done. assert (Hsl : slice (elems v) 0 (length P) = Done P) by (unfold vdata in Hv; rewrite Hl in Hv; done).
  replace (length P / 2) with (length p) by lia.
  rewrite (usub_Done (length p)) by lia. rewrite bind_Done. fold h.
  pose proof (padb_center zero (elems v) P (complex_to_array old) (h * 2) (length p / 2 * 2) (2 * n) ltac:(lia) ltac:(lia) HT Hsl) as HC. rewrite HC.
  split; intros Hg.
  - destruct (h * 2 <=? 2 * n - length P) eqn:E2; [lia|done].
  - destruct (h * 2 <=? 2 * n - length P) eqn:E2; [|lia]. rewrite bind_Done.
    assert (Eq : take (h * 2) P ++ replicate (2 * n - length P - h * 2) zero ++ take (h * 2) (drop (2 * n - length P) (complex_to_array old)) ++ drop (h * 2) P =
      complex_to_array (take h p ++ zeros (zero, zero) (gap - h) ++ take h (drop gap old) ++ drop h p)).
    { rewrite !complex_to_array_app. unfold zeros. rewrite complex_to_array_replicate.
      replace (2 * n - length P) with (2 * gap) by lia. replace (2 * (gap - h)) with (2 * gap - h * 2) by lia.
      rewrite (Nat.mul_comm h 2). unfold P. rewrite !complex_to_array_drop, !complex_to_array_take. done. }
    rewrite Eq. set (q := take h p ++ _) in *. rewrite complex_to_array_length in HT.
    assert (Hq : length (complex_to_array q) = 2 * n).
    { rewrite complex_to_array_length. unfold q, zeros. rewrite !app_length, !take_length, replicate_length, !drop_length. lia. }
    destruct (trade_vdata b v _ _ Hb Hq) as (v' & b' & H1 & H2 & H3).
    exists v', b'. destruct (trade b _ (data v)) as [s b2]. apply pair_equal_spec in H1 as [<- <-]. split_and!; done.
Qed.

(** ** zero_interleave *)
Theorem interleave_odd_storage {A} (zero : A) (v : dvec A) p f :
  cplx v p -> 0 < f -> Nat.even (alloc_len v) = false -> 2 * (length p * f) <= alloc_len v -> zero_interleave zero v f = Panicked.
Proof.
  intros [Hc Hv] Hf He Ha. unfold zero_interleave. pose proof (vdata_inv _ _ Hv) as (Hl & _). rewrite complex_to_array_length in Hl.
  unfold len. rewrite Hl. destruct (2 * length p * f <? 2 * length p) eqn:E; [nia|].
  unfold resize. rewrite Hc. replace (2 * length p * f) with (2 * (length p * f)) by lia.
  assert (Ho : Nat.odd (2 * (length p * f)) = false) by (apply even_odd_false, even_double). rewrite Ho. cbn [andb].
  destruct (alloc_len v <? 2 * (length p * f)) eqn:E2; [lia|].
  change (elems (set_valid_len v (2 * (length p * f)))) with (elems v). unfold array_to_complex, assert_.
  unfold alloc_len, s_len in He. fold (elems v) in He. by rewrite He.
Qed.
Theorem interleave_b_empty {A} (zero : A) b (v : dvec A) f : len v = 0 -> 2 <= f -> lends b v 0 -> zero_interleave_b zero b v f = Panicked.
Proof.
  intros Hl Hf Hb. unfold zero_interleave_b. destruct (f <=? 1) eqn:E; [lia|]. rewrite Hl, Nat.mul_0_r. cbv zeta.
  destruct (borrow_lends zero b v 0 Hb) as (T & -> & HT). rewrite bind_Done, slice_Done by lia. rewrite bind_Done. by destruct T.
Qed.

(** ** ifft_shift of a single point *)
Lemma swap_array_single {A} (x : A) : swap_array_halves [x] false = Panicked.
Proof. done. Qed.
Theorem ifft_shift_single {A} (v : dvec A) : wf v -> points v = 1 -> fft_shift v = Done v /\ ifft_shift v = Panicked.
Proof.
  intros Hw Hp. destruct (reals_or_cplx v Hw) as [[l Hl]|[c Hc]].
  - destruct Hl as [Hr Hv]. pose proof (vdata_inv _ _ Hv) as (Hl & Hle & Htk). unfold points in Hp. rewrite Hr, Hl, Nat.div_1_r in Hp.
    destruct l as [|x [|y l]]; try done. unfold fft_shift, ifft_shift, swap_halves_priv, len. rewrite Hl. cbn [length Nat.eqb]. rewrite Hr.
    unfold on_valid_real, len. unfold vdata in Hv. rewrite Hl in Hv |- *. rewrite Hv. split; [|done]. cbn.
    assert (Hs : elems v = x :: drop 1 (elems v)).
    { rewrite <- (take_drop 1 (elems v)) at 1. cbn [length] in Htk. by rewrite Htk. }
    rewrite splice_Done; [|rewrite Hs; cbn; lia]. rewrite bind_Done. f_equal.
    cbn [length Nat.add take]. change ([x] ++ drop 1 (elems v)) with (x :: drop 1 (elems v)). cbn [app]. rewrite <- Hs. destruct v as [[]]; done.
  - destruct Hc as [Hr Hv]. pose proof (vdata_inv _ _ Hv) as (Hl & Hle & Htk). rewrite complex_to_array_length in Hl. unfold points in Hp. rewrite Hr, Hl in Hp.
    destruct c as [|[x y] [|? c]]; [done| |cbn [length] in Hp; lia]. unfold fft_shift, ifft_shift, swap_halves_priv, len. rewrite Hl. cbn [length Nat.mul Nat.add Nat.eqb].
    rewrite Hr. unfold on_valid_complex, len. unfold vdata in Hv. rewrite Hl in Hv |- *. cbn [length Nat.mul Nat.add] in Hv |- *. rewrite Hv. split; [|done]. cbn.
    assert (Hs : elems v = [x; y] ++ drop 2 (elems v)).
    { rewrite <- (take_drop 2 (elems v)) at 1. change (take 2 (elems v) = [x; y]) in Htk. rewrite Htk. done. }
    rewrite splice_Done; [|rewrite Hs; cbn; lia]. rewrite bind_Done. f_equal.
    cbn [length Nat.add take]. cbn [app] in Hs |- *. rewrite <- Hs. destruct v as [[]]; done.
Qed.

(** ** split_into and merge of real vectors with spare elements in the storage *)
Lemma dealt_step_room {A} k (l : list A) ts0 ts i x :
  0 < k -> length ts0 = k -> (forall t0, ts0 !! (i mod k) = Some t0 -> i / k < length (elems t0)) -> l !! i = Some x ->
  dealt_upto 1 k l ts0 ts i -> exists ts', wr_target ts (i mod k) (i / k) x = Done ts' /\ dealt_upto 1 k l ts0 ts' (i + 1).
Proof.
  intros Hk Hl0 Hbig Hx [Hlen Hts]. pose proof (Nat.mod_upper_bound i k ltac:(lia)) as Hmod.
  destruct (lookup_lt_is_Some_2 ts0 (i mod k)) as [t0 Ht0]; [lia|].
  destruct (Hts _ _ Ht0) as (E & HE & HEl & HEq).
  assert (Hpos : i / k < length E) by (rewrite HEl; by apply Hbig).
  rewrite (wr_target_Done _ _ _ _ _ HE) by (rewrite set_elems_elems; done).
  eexists; split; [done|]. split; [by rewrite insert_length|].
  intros j t0' Ht0'.
  destruct (decide (j = i mod k)) as [-> |Hne].
  - rewrite Ht0 in Ht0'. injection Ht0' as <-.
    exists (<[i / k := x]> E). rewrite list_lookup_insert by lia.
    split; [done|]. split; [by rewrite insert_length|].
    intros q. rewrite !Nat.div_1_r. rewrite Nat.mod_1_r, Nat.add_0_r, Nat.mul_1_l.
    pose proof (Nat.div_mod i k ltac:(lia)) as Hdm.
    destruct (decide (q = i / k)) as [-> |Hq].
    + rewrite list_lookup_insert by lia.
      assert (i / k * k + i mod k = i) as -> by lia.
      destruct (i <? i + 1) eqn:E1; [done|lia].
    + rewrite list_lookup_insert_ne by done. rewrite HEq.
      rewrite !Nat.div_1_r. rewrite Nat.mod_1_r, Nat.add_0_r, Nat.mul_1_l.
      assert (q * k + i mod k <> i). { intros HH. apply Hq. assert ((q - i / k) * k = 0) by nia. nia. }
      destruct (q * k + i mod k <? i) eqn:E1, (q * k + i mod k <? i + 1) eqn:E2; try done; lia.
  - destruct (Hts _ _ Ht0') as (E' & HE' & HEl' & HEq'). exists E'.
    rewrite list_lookup_insert_ne by done. split_and!; [done|done|].
    intros q. rewrite HEq', !Nat.div_1_r.
    assert (q * k + j <> i).
    { intros HH. apply Hne. rewrite <- HH. rewrite (Nat.add_comm (_ * _)), Nat.mod_add by lia.
      rewrite Nat.mod_small; [done|]. apply lookup_lt_Some in Ht0'. lia. }
    destruct (q * k + j <? i) eqn:E1, (q * k + j <? i + 1) eqn:E2; try done; lia.
Qed.

Lemma resized_alloc {A} (zero : A) ts ts' m : resize_all zero ts m = (ts', Ok tt) ->
  length ts' = length ts /\ forall j t0, ts' !! j = Some t0 -> exists t, ts !! j = Some t /\ len t0 = m /\ same_meta t t0 /\ length (elems t0) = Nat.max m (alloc_len t).
Proof.
  intros Er. apply resize_all_Ok in Er. split; [symmetry; by eapply Forall2_length|]. intros j t0 Ht0.
  eapply Forall2_lookup_r in Er as (t & Ht & Hr); [|exact Ht0]. exists t. split; [done|].
  destruct (resize_cases zero t m) as [[e He]|(v' & n' & H1 & H2 & H3 & H4 & H5 & H6 & _ & H8)].
  - rewrite He in Hr. discriminate.
  - rewrite H1 in Hr. injection Hr as <-. split_and!; try apply H3; try done. rewrite H6, app_length, replicate_length. unfold alloc_len, s_len in *. fold (elems t) in *. lia.
Qed.

Theorem split_into_spare {A} (zero : A) (v : dvec A) ts p :
  reals v p -> ts <> [] -> length p mod length ts = 0 -> Forall (fun t => is_complex t = false) ts ->
  (exists ts' e, split_into zero v ts = Done (ts', Err e) /\ resize_all zero ts (length p / length ts) = (ts', Err e)) \/
  (spare_fits v (length p) ts -> exists ts' parts, split_into zero v ts = Done (ts', Ok tt) /\ Forall2 same_meta ts ts' /\
    Forall2 reals ts' parts /\ dealt p parts) /\
  (spare_lost v (length p) ts -> split_into zero v ts = Panicked).
Proof.
  intros [Hc Hv] Hne Hm Hreal. unfold split_into.
  pose proof (vdata_inv v p Hv) as (Hl & _ & Htk). destruct (vdata_split v p Hv) as (rest & Hel & _). unfold len in *. rewrite Hl.
  assert (Hk : 0 < length ts) by (destruct ts; simpl; [done|lia]).
  destruct (length ts =? 0) eqn:E0; [lia|]. rewrite Hm. cbn [orb negb Nat.eqb].
  destruct (resize_all zero ts (length p / length ts)) as [ts' [[]|e]] eqn:Er; [|left; eauto].
  right. rewrite Hc. apply resized_alloc in Er as (Hln & Hprop). unfold spare_fits, spare_lost.
  set (k := length ts) in *. set (m := length p / k) in *.
  assert (Hmk : m * k = length p) by (apply div_exact; lia).
  assert (Hal : alloc_len v = length (elems v)) by done. rewrite Hal. cbv zeta. split.
  - intros Hroom.
    destruct (loop_inv (fun i ts => dealt_upto 1 k (elems v) ts' ts i) (length (elems v)) 0
      (fun i ts => x ← rd (elems v) i; wr_target ts (i mod k) (i / k) x) ts') as (ts'' & Hloop & [Hlts Hd]).
    { by apply dealt_init. }
    { intros i tsi Hi Hdi. destruct (rd_lt (elems v) i ltac:(lia)) as (x & Hx & Hr). rewrite Hr, bind_Done.
      apply (dealt_step_room k); try done; try lia. intros t0 Ht0. destruct (Hprop _ _ Ht0) as (t & Ht & _ & _ & ->).
      destruct (decide (i < length p)) as [Hip|Hip].
      - assert (i / k < m) by (apply Nat.div_lt_upper_bound; lia). lia.
      - specialize (Hroom i t ltac:(lia) Ht). lia. }
    rewrite Hloop, bind_Done.
    assert (Hidx : forall j i, j < k -> i < m -> i * k + j < length p). { intros j i Hj Hi. rewrite <- Hmk. nia. }
    destruct (dealt_parts p k m Hmk) as (parts & Hpl & Hdealt & Hparts).
    exists ts'', parts. split; [done|].
    assert (Hall : forall j t'', ts'' !! j = Some t'' -> exists t part, ts !! j = Some t /\ parts !! j = Some part /\
        same_meta t t'' /\ vdata t'' = Done part).
    { intros j t'' Ht''. pose proof (lookup_lt_Some _ _ _ Ht'') as Hj.
      destruct (lookup_lt_is_Some_2 ts' j) as [t0 Ht0]; [lia|].
      destruct (Hprop _ _ Ht0) as (t & Ht & Hlen0 & Hsm & Hme).
      destruct (Hd _ _ Ht0) as (E & HE & HEl & HEq). rewrite Ht'' in HE. injection HE as ->.
      destruct (Hparts j ltac:(lia)) as (part & Hpart & Hplen & Hpi).
      exists t, part. split_and!; try apply Hsm; try done.
      unfold len in Hlen0. apply (vdata_intro _ _ (drop m E)); [|simpl; lia].
      rewrite set_elems_elems. rewrite <- (take_drop m E) at 1. f_equal.
      apply list_eq_same_length with m; [done|rewrite take_length, HEl; lia|].
      intros i x y Hi H1 H2. rewrite lookup_take in H1 by done. rewrite HEq in H1. rewrite Hpi in H2 by done.
      rewrite Nat.div_1_r, Nat.mod_1_r, Nat.mul_1_l, Nat.add_0_r in H1. pose proof (Hidx j i ltac:(lia) Hi).
      rewrite Hel, app_length in H1. rewrite lookup_app_l in H1 by lia.
      rewrite Nat.add_0_l in H1. destruct (i * k + j <? length p + length rest) eqn:E1; [congruence|lia]. }
    split_and!.
    + apply Forall2_same_length_lookup_2; [lia|]. intros j t t'' H1 H2.
      destruct (Hall _ _ H2) as (t1 & part & Ht1 & _ & Hs & _). rewrite H1 in Ht1. injection Ht1 as ->. done.
    + apply Forall2_same_length_lookup_2; [lia|]. intros j t'' part H1 H2.
      destruct (Hall _ _ H1) as (t1 & part' & Ht1 & Hp' & Hs & Hvd). rewrite H2 in Hp'. injection Hp' as ->.
      split; [|done]. destruct Hs as (_ & _ & Hs). unfold is_complex. rewrite Hs.
      rewrite Forall_lookup in Hreal. apply (Hreal _ _ Ht1).
    + done.
  - intros (i & t & Hi & Ht & Hlost).
    rewrite (loop_panics (fun _ tsi => length tsi = k /\ forall j t0, ts' !! j = Some t0 -> exists t1, tsi !! j = Some t1 /\ length (elems t1) = length (elems t0))
      (length (elems v)) 0 (fun i ts => x ← rd (elems v) i; wr_target ts (i mod k) (i / k) x) ts'); [done| | |].
    + split; [done|]. eauto.
    + intros j tsi Hj [Hlj Hsame]. destruct (rd_lt (elems v) j ltac:(lia)) as (x & Hx & Hr). rewrite Hr, bind_Done.
      pose proof (Nat.mod_upper_bound j k ltac:(lia)) as Hmod. destruct (lookup_lt_is_Some_2 tsi (j mod k)) as [tj Htj]; [lia|].
      destruct (decide (j / k < length (elems tj))) as [Hlt|Hge].
      * right. rewrite (wr_target_Done _ _ _ _ _ Htj) by done. eexists. split; [done|]. split; [by rewrite insert_length|].
        intros j' t0 Ht0. destruct (Hsame _ _ Ht0) as (t1 & Ht1 & El). destruct (decide (j' = j mod k)) as [-> |Hn].
        -- rewrite list_lookup_insert by lia. eexists. split; [done|]. rewrite set_elems_elems, insert_length. rewrite Htj in Ht1. by injection Ht1 as ->.
        -- rewrite list_lookup_insert_ne by done. eauto.
      * left. unfold wr_target. apply rd_Done in Htj. rewrite Htj, bind_Done, wr_Panicked by lia. done.
    + exists i. split; [lia|]. intros tsi [Hlj Hsame]. destruct (rd_lt (elems v) i ltac:(lia)) as (x & Hx & Hr). rewrite Hr, bind_Done.
      pose proof (Nat.mod_upper_bound i k ltac:(lia)) as Hmod. destruct (lookup_lt_is_Some_2 ts' (i mod k)) as [t0 Ht0]; [lia|].
      destruct (Hprop _ _ Ht0) as (t' & Ht' & _ & _ & Hme). rewrite Ht in Ht'. injection Ht' as <-.
      destruct (Hsame _ _ Ht0) as (t1 & Ht1 & El). unfold wr_target. apply rd_Done in Ht1. rewrite Ht1, bind_Done, wr_Panicked; [done|].
      rewrite El, Hme. assert (m <= i / k) by (apply Nat.div_le_lower_bound; lia). lia.
Qed.

Theorem vmerge_spare {A} (zero : A) (v : dvec A) sources parts p :
  is_complex v = false -> sources <> [] -> Forall2 reals sources parts -> dealt p parts ->
  (exists e, vmerge zero v sources = Done (v, Err e) /\ resize zero v (length p) = (v, Err e)) \/
  (spare_fits v (length p) sources -> exists v', vmerge zero v sources = Done (v', Ok tt) /\ same_meta v v' /\ reals v' p) /\
  (spare_lost v (length p) sources -> vmerge zero v sources = Panicked).
Proof.
  intros Hc Hne HF Hd.
  pose proof (Forall2_length _ _ _ HF) as Hsl.
  set (k := length parts) in *.
  assert (Hk : 0 < k). { destruct sources; [done|]. simpl in Hsl. lia. }
  assert (Hm : exists m, m * k = length p /\ Forall (fun s => len s = m) sources).
  { destruct (lookup_lt_is_Some_2 parts 0) as [p0 Hp0]; [fold k; lia|].
    exists (length p0). split; [apply (Hd _ _ Hp0)|].
    apply Forall_lookup. intros j s Hs. destruct (Forall2_lookup_l _ _ _ _ _ HF Hs) as (part & Hpart & [_ Hv]).
    apply vdata_inv in Hv as (Hv & _). unfold len. rewrite Hv.
    destruct (Hd _ _ Hpart) as [H1 _], (Hd _ _ Hp0) as [H2 _]. fold k in H1, H2. nia. }
  destruct Hm as (m & Hmk & Hms).
  destruct (vmerge_checks sources m Hne Hms) as (s0 & rest & Hs & Hl0 & Hex).
  unfold spare_fits, spare_lost. rewrite Hsl.
  assert (Ev : vmerge zero v sources = match resize zero v (m * k) with
      | (v', Err e) => Done (v', Err e)
      | (v', Ok _) =>
          d' ← (if is_complex v' then
            loop (len v' / 2) 0 (fun i d =>
              s ← rd sources (i mod k);
              let pos := i / k in
              x ← rd (elems s) (2 * pos);
              d ← wr d (2 * i) x;
              y ← rd (elems s) (2 * pos + 1);
              wr d (2 * i + 1) y) (elems v')
          else
            loop (length (elems v')) 0 (fun i d =>
              s ← rd sources (i mod k);
              let pos := i / k in
              x ← rd (elems s) pos;
              wr d i x) (elems v'));
          Done (set_elems v' d', Ok tt)
      end).
  { unfold vmerge. rewrite Hs, Hex, Hl0, <- Hs, Hsl. done. }
  rewrite Ev, Hmk. clear Ev.
  destruct (resize zero v (length p)) as [v' [[]|e]] eqn:Er.
  2:{ left. exists e. destruct (resize_cases zero v (length p)) as [[e' He]|(v1 & n1 & H1 & _)]; rewrite Er in *; [|discriminate].
      injection He as -> ->. done. }
  right. destruct (resize_cases zero v (length p)) as [[e' He]|(v1 & n1 & H1 & H2 & H3 & H4 & H5 & H6 & H7 & H8)]; rewrite Er in *; [discriminate|].
  injection H1 as <-. assert (Hc' : is_complex v' = false). { unfold is_complex. destruct H3 as (_ & _ & ->). done. }
  rewrite Hc'. cbv zeta.
  assert (Hlen : length (elems v') = Nat.max (length p) (alloc_len v)).
  { rewrite H6, app_length, replicate_length. unfold alloc_len, s_len in *. fold (elems v) in *. lia. }
  set (body := fun (i : nat) (d : list A) => s ← rd sources (i mod k); x ← rd (elems s) (i / k); wr d i x).
  assert (Hbody : forall i d s, length d = length (elems v') -> i < length (elems v') -> sources !! (i mod k) = Some s ->
    (alloc_len s <= i / k -> body i d = Panicked) /\
    (i / k < alloc_len s -> exists x, elems s !! (i / k) = Some x /\ body i d = Done (<[i := x]> d))).
  { intros i d s Hld Hi Hsi. unfold body. apply rd_Done in Hsi. rewrite Hsi, bind_Done. split; intros Hlt.
    - unfold rd. rewrite lookup_ge_None_2; [done|]. exact Hlt.
    - destruct (rd_lt (elems s) (i / k)) as (x & Hx & ->); [exact Hlt|]. exists x. split; [done|]. rewrite bind_Done, wr_Done by lia. done. }
  assert (Hsrc : forall i, exists s part, sources !! (i mod k) = Some s /\ parts !! (i mod k) = Some part /\ reals s part /\ length part = m).
  { intros i. pose proof (Nat.mod_upper_bound i k ltac:(lia)) as Hmod. destruct (lookup_lt_is_Some_2 sources (i mod k)) as [s Hsi]; [lia|].
    destruct (Forall2_lookup_l _ _ _ _ _ HF Hsi) as (part & Hpart & Hv). exists s, part. split_and!; try apply Hv; try done.
    destruct (Hd _ _ Hpart) as [Hpm _]. fold k in Hpm. nia. }
  split.
  - intros Hroom.
    destruct (loop_inv (fun i d => length d = length (elems v') /\ forall j, j < i -> j < length p -> d !! j = p !! j) (length (elems v')) 0 body (elems v'))
      as (d & Hloop & Hld & Hdd).
    { split; [done|lia]. }
    { intros i d Hi [Hld IH]. destruct (Hsrc i) as (s & part & Hsi & Hpart & Hv & Hpl). destruct (Hbody i d s Hld ltac:(lia) Hsi) as [_ Hok].
      destruct (vdata_split _ _ (proj2 Hv)) as (r & Hr & _).
      destruct (decide (i < length p)) as [Hip|Hip].
      - assert (Hik : i / k < m) by (apply Nat.div_lt_upper_bound; lia).
        destruct Hok as (x & Hx & ->). { unfold alloc_len, s_len. fold (elems s). rewrite Hr, app_length. lia. }
        eexists. split; [done|]. split; [by rewrite insert_length|]. intros j Hj Hjp. destruct (decide (j = i)) as [-> |].
        + rewrite list_lookup_insert by lia. rewrite Hr, lookup_app_l in Hx by lia.
          destruct (Hd _ _ Hpart) as [_ Hpi]. fold k in Hpi. rewrite Hpi in Hx by lia. pose proof (Nat.div_mod i k ltac:(lia)).
          replace (i / k * k + i mod k) with i in Hx by lia. done.
        + rewrite list_lookup_insert_ne by done. apply IH; lia.
      - destruct Hok as (x & Hx & ->). { apply (Hroom i s); [lia|done]. }
        eexists. split; [done|]. split; [by rewrite insert_length|]. intros j Hj Hjp.
        rewrite list_lookup_insert_ne by lia. apply IH; lia. }
    rewrite Hloop, bind_Done. eexists; split; [done|]. split; [exact H3|]. split; [exact Hc'|].
    apply (vdata_intro _ _ (drop (length p) d)); [|exact H2]. rewrite set_elems_elems. rewrite <- (take_drop (length p) d) at 1. f_equal.
    apply list_eq_same_length with (length p); [done|rewrite take_length; lia|]. intros j x y Hj Hx Hy. rewrite lookup_take in Hx by done.
    rewrite Hdd in Hx by lia. congruence.
  - intros (i & t & Hi & Ht & Hlost).
    assert (Hloop : loop (length (elems v')) 0 body (elems v') = Panicked).
    { apply (loop_panics (fun _ d => length d = length (elems v'))); [done| |].
      - intros j d Hj Hld. destruct (Hsrc j) as (s & part & Hsj & _). destruct (Hbody j d s Hld ltac:(lia) Hsj) as [Hbad Hok].
        destruct (decide (j / k < alloc_len s)) as [Hlt|Hge]; [|left; apply Hbad; lia].
        right. destruct (Hok Hlt) as (x & _ & ->). eexists. split; [done|]. by rewrite insert_length.
      - exists i. split; [lia|]. intros d Hld. apply (Hbody i d t Hld ltac:(lia) Ht). done. }
    rewrite Hloop. done.
Qed.

(** ** Center in place and with a buffer *)
Theorem center_agree {A} (zero : A) b (v : dvec A) n :
  wf v -> points v < n -> points v - points v / 2 <= n - points v ->
  let w := if is_complex v then 2 else 1 in
  lends b v (w * n) -> can_hold (data v) (w * n) -> borrow zero b (w * n) = Done (zeros zero (w * n)) ->
  exists v1 v2 b', zero_pad zero v n Center = Done (v1, Ok tt) /\ zero_pad_b zero b v n Center = Done (v2, b', Ok tt) /\
    vdata v1 = vdata v2 /\ same_meta v v1 /\ same_meta v v2.
Proof.
  intros Hw Hn Hg w Hb Hch Ho.
  assert (Hre : forall L, (is_complex v = true -> Nat.odd L = false) -> can_hold (data v) L -> forall e v', resize zero v L = (v', Err e) -> False).
  { intros L Ho2 HL e v' Hr. unfold resize in Hr. destruct (is_complex v) eqn:E.
    - rewrite (Ho2 eq_refl) in Hr. simpl in Hr. unfold try_resize, can_hold, alloc_len in *.
      destruct (s_kind (data v)); repeat case_match; simplify_eq; lia.
    - simpl in Hr. unfold try_resize, can_hold, alloc_len in *.
      destruct (s_kind (data v)); repeat case_match; simplify_eq; lia. }
  assert (Hz : forall X (z : X) (p : list X), length p < n -> length p - length p / 2 <= n - length p ->
    take (length p - length p / 2) p ++ zeros z (n - length p - (length p - length p / 2)) ++
      take (length p - length p / 2) (drop (n - length p) (zeros z n)) ++ drop (length p - length p / 2) p = padded z Center ((n - length p) / 2 + 1) n p).
  { intros X z p Hp Hgp. unfold padded, zeros. f_equal. rewrite drop_replicate, take_replicate. rewrite app_assoc, <- replicate_add. f_equal. f_equal. lia. }
  unfold w in *. clear w. destruct (reals_or_cplx v Hw) as [[p Hp]|[p Hp]].
  - pose proof Hp as [Hc Hv]. rewrite Hc in *. pose proof (vdata_inv _ _ Hv) as (Hl & _).
    assert (Hpt : length p = points v). { unfold points. rewrite Hc, Hl, Nat.div_1_r. done. } rewrite <- Hpt in *. rewrite Nat.mul_1_l in *.
    destruct (zero_pad_b_center zero b v p n _ Hn Hp Hb Ho) as [_ Hx]. destruct (Hx Hg) as (v2 & b2' & E2 & M2 & [_ R2]).
    destruct (zero_pad_real zero v p n Center Hp Hn) as [(e & _ & He)|(v1 & E1 & M1 & [_ R1])].
    { exfalso. eapply Hre; [|exact Hch|exact He]. done. }
    exists v1, v2, b2'. split_and!; try apply M1; try apply M2; try done. rewrite R1, R2. f_equal. symmetry. apply Hz; done.
  - pose proof Hp as [Hc Hv]. rewrite Hc in *. pose proof (vdata_inv _ _ Hv) as (Hl & _). rewrite complex_to_array_length in Hl.
    assert (Hpt : length p = points v). { unfold points. rewrite Hc, Hl. lia. } rewrite <- Hpt in *.
    unfold zeros in Ho. rewrite <- complex_to_array_replicate in Ho.
    destruct (zero_pad_b_center_cplx zero b v p n _ Hn Hp Hb Ho) as [_ Hx]. destruct (Hx Hg) as (v2 & b2' & E2 & M2 & [_ R2]).
    destruct (zero_pad_cplx zero v p n Center Hp Hn) as [(e & _ & He)|(v1 & E1 & M1 & [_ R1])].
    { exfalso. eapply Hre; [|exact Hch|exact He]. intros _. rewrite even_odd_false. apply even_double. }
    exists v1, v2, b2'. split_and!; try apply M1; try apply M2; try done. rewrite R1, R2. do 2 f_equal. symmetry. apply Hz; done.
Qed.

Lemma spare_dec {A} (v : dvec A) from ts : spare_fits v from ts \/ spare_lost v from ts.
Proof.
  unfold spare_fits, spare_lost. generalize (alloc_len v) as n. induction n as [|n IH]; [left; lia|].
  destruct IH as [IH|(i & t & Hi & Ht & Hl)]; [|right; exists i, t; split_and!; try done; lia].
  destruct (decide (from <= n)) as [Hf|Hf]; [|left; lia].
  destruct (ts !! (n mod length ts)) as [t|] eqn:Et.
  - destruct (decide (n / length ts < alloc_len t)) as [Hlt|Hge].
    + left. intros i t' Hi Ht'. destruct (decide (i = n)) as [-> |Hne]; [rewrite Et in Ht'; by injection Ht' as <-|]. apply (IH i t'); [lia|done].
    + right. exists n, t. split_and!; try done; lia.
  - left. intros i t' Hi Ht'. destruct (decide (i = n)) as [-> |Hne]; [congruence|]. apply (IH i t'); [lia|done].
Qed.

Theorem merge_split_spare {A} (zero : A) (v w : dvec A) ts ts' :
  wf v -> is_complex w = is_complex v -> s_kind (data w) = KVec ->
  (is_complex v = false -> spare_fits w (len v) ts') ->
  Forall (fun t => is_complex t = is_complex v) ts -> ts <> [] -> points v mod length ts = 0 ->
  split_into zero v ts = Done (ts', Ok tt) ->
  exists w', vmerge zero w ts' = Done (w', Ok tt) /\ vdata w' = vdata v /\ same_meta w w'.
Proof.
  intros Hw Hcw Hk Hsp HF Hne Hmod Hs.
  destruct (is_complex v) eqn:Ec.
  { apply (merge_split zero v w ts ts'); [done|congruence|done|congruence|by rewrite Ec|done|done|done]. }
  assert (Hvr : exists p, reals v p).
  { destruct (reals_or_cplx v Hw) as [Hr|(c & Hc & _)]; [done|congruence]. }
  destruct Hvr as [p Hp]. pose proof Hp as [_ Hv]. pose proof (vdata_inv _ _ Hv) as (Hl & _).
  assert (Hpt : points v = length p). { unfold points. by rewrite Ec, Hl, Nat.div_1_r. }
  assert (Hln : len v = length p) by done. rewrite Hln in Hsp.
  rewrite Hpt in Hmod. destruct (split_into_spare zero v ts p Hp Hne Hmod HF) as [(t & e & E & _)|[Hok Hbad]]; [rewrite Hs in E; discriminate|].
  destruct (spare_dec v (length p) ts) as [Hfit|Hlost]; [|rewrite (Hbad Hlost) in Hs; discriminate].
  destruct (Hok Hfit) as (ts2 & parts & E & Hm & HR & HD). rewrite Hs in E. injection E as <-.
  assert (Hne' : ts' <> []). { intros ->. by inversion Hm; subst. }
  destruct (vmerge_spare zero w ts' parts p Hcw Hne' HR HD) as [(e & _ & He)|[Hok2 _]].
  - exfalso. unfold resize in He. rewrite Hcw in He. cbn [andb] in He. unfold try_resize in He. rewrite Hk in He. destruct (alloc_len w <? length p); discriminate.
  - destruct (Hok2 (Hsp eq_refl)) as (w' & E & Hmm & Hr). exists w'. split_and!; try apply Hmm; try done. destruct Hr as [_ ->]. done.
Qed.
