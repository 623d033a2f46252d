(** Proofs about the overlap-discard convolution. *)
From Verif Require Export Model_Overlap Proof_FftMore.
From stdpp Require Import list_numbers.
Local Open Scope nat_scope.

Lemma next_power_of_two_spec n : 0 < n -> exists p, next_power_of_two n = Done p /\ n <= p <= 2 * n /\ (Nat.even n = true -> Nat.even p = true).
Proof.
  intros Hn. unfold next_power_of_two. destruct (negb (n =? 0) && _) eqn:E.
  { exists n. split_and!; try lia; done. }
  clear E. destruct (while_inv (fun '(k, count) => k = n / 2 ^ count /\ (count = 0 \/ 2 ^ (count - 1) <= n)) (fun '(k, _) => k) (n + 1)
    (fun '(n, _) => negb (n =? 0)) (fun '(n, count) => Done (n / 2, count + 1)) (n, 0)) as ([k count] & E & [Hk Hc] & Hf).
  - split; [by rewrite Nat.pow_0_r, Nat.div_1_r | by left].
  - lia.
  - intros [k count] [Hk Hc] Hf. apply negb_true_iff, Nat.eqb_neq in Hf. exists (k / 2, count + 1). split; [done|]. split.
    + split.
      * rewrite Nat.pow_add_r. cbn [Nat.pow Nat.mul]. rewrite Nat.add_0_r. change (1 + 1) with 2. rewrite <- Nat.div_div; [by rewrite <- Hk | by apply Nat.pow_nonzero | done].
      * right. rewrite Nat.add_sub. destruct (le_lt_dec (2 ^ count) n) as [|Hlt]; [done|]. rewrite Nat.div_small in Hk by done. lia.
    + apply Nat.div_lt; lia.
  - rewrite E, bind_Done. apply negb_false_iff, Nat.eqb_eq in Hf. subst k.
    assert (Hpn : 2 ^ count <> 0) by (by apply Nat.pow_nonzero). apply Nat.div_small_iff in Hf; [|done].
    exists (2 ^ count). split; [done|]. destruct count as [|c].
    { cbn in Hf. lia. }
    destruct Hc as [Hc|Hc]; [done|]. replace (S c - 1) with c in Hc by lia. cbn [Nat.pow] in *. split; [lia|]. intros _. rewrite Nat.even_mul. done.
Qed.

(** Writes, point by point *)
Lemma copy_into_lookup {P} (l : list P) a b src : a <= b -> b <= length l -> length src = b - a ->
  exists l', copy_into l a b src = Done l' /\ length l' = length l /\
    (forall i, a <= i < b -> l' !! i = src !! (i - a)) /\ (forall i, i < a \/ b <= i -> l' !! i = l !! i).
Proof.
  intros H1 H2 H3. rewrite copy_into_Done by done. eexists. split; [done|]. split_and!.
  - rewrite !app_length, take_length, drop_length. lia.
  - intros i Hi. rewrite lookup_app_r by (rewrite take_length; lia). rewrite take_length, Nat.min_l by lia. rewrite lookup_app_l by lia. done.
  - intros i [Hi|Hi].
    + rewrite lookup_app_l by (rewrite take_length; lia). by rewrite lookup_take.
    + rewrite lookup_app_r by (rewrite take_length; lia). rewrite take_length, Nat.min_l by lia. rewrite lookup_app_r by lia. rewrite lookup_drop. f_equal. lia.
Qed.
Lemma splice_lookup {P} (l : list P) a src : a + length src <= length l ->
  exists l', splice l a src = Done l' /\ length l' = length l /\
    (forall i, a <= i < a + length src -> l' !! i = src !! (i - a)) /\ (forall i, i < a \/ a + length src <= i -> l' !! i = l !! i).
Proof.
  intros H1. destruct (copy_into_lookup l a (a + length src) src) as (l' & E & K); [lia | lia | lia |]. exists l'. split; [|done].
  rewrite copy_into_Done in E by lia. by rewrite splice_Done.
Qed.

Section scalar.
Context {P : Type} (zero : P) (add mul : P -> P -> P).
(** The data iterator ends first. *)
Lemma convolve_zip_more x h rest z sum : x <> [] ->
  convolve_zip add mul x (WIter (circular (length x) z) (length h)) (h ++ rest) sum =
  Done (foldl add sum (map (fun k => mul (around zero x (z - 1 - Z.of_nat k)) (default zero (h !! k))) (seq 0 (length h)))).
Proof.
  intros Hx. revert z sum. induction h as [|y h IH]; intros z sum.
  - destruct rest; done.
  - cbn [app length convolve_zip]. rewrite (rwi_next_Some zero) by done. rewrite bind_Done.
    rewrite IH. cbn [seq map foldl]. f_equal. replace (z - 1 - Z.of_nat 0)%Z with (z - 1)%Z by lia.
    cbn [lookup list_lookup default]. rewrite <- seq_shift, map_map. f_equal. apply map_ext. intros k.
    replace (z - 1 - Z.of_nat (S k))%Z with (z - 1 - 1 - Z.of_nat k)%Z by lia. done.
Qed.
Lemma convolve_iteration_more x h rest i conv_len : x <> [] ->
  convolve_iteration zero add mul x (h ++ rest) i conv_len (length h) =
  Done (series zero add (length h) (fun k => mul (around zero x (Z.of_nat i + Z.of_nat conv_len - 1 - Z.of_nat k)) (default zero (h !! k)))).
Proof.
  intros Hx. unfold convolve_iteration. rewrite wi_new_Done by (destruct x; [done|simpl; lia]). rewrite bind_Done. by rewrite convolve_zip_more.
Qed.
End scalar.

Section parts.
Context {A : Type} `{Num A}.
Lemma scalar_part_spec (x h rest l : list (A * A)) count position : x <> [] -> count <= length l -> position + count <= length x ->
  exists l', scalar_part x (h ++ rest) (length h) count position l = Done l' /\ length l' = length l /\
    forall i, i < count -> l' !! i = centred_convolution (n0, n0) cadd cmul x h !! (position + i).
Proof.
  intros Hx Hc Hp. unfold scalar_part.
  destruct (loop_inv (fun j (d : list (A * A)) => length d = length l /\ forall i, i < j -> d !! i = centred_convolution (n0, n0) cadd cmul x h !! (position + i))
    count 0 (fun i l => x ← convolve_iteration (n0, n0) cadd cmul x (h ++ rest) (position + i) ((length h + 1) / 2) (length h); wr l i x) l) as (l' & E & Hl & Hi).
  - split; [done|]. lia.
  - intros j d Hj [Hd Hi]. rewrite convolve_iteration_more by done. rewrite bind_Done, wr_Done by lia. eexists. split; [done|]. split; [by rewrite insert_length|].
    intros i Hij. destruct (decide (i = j)) as [->|Hne].
    + rewrite list_lookup_insert by lia. unfold centred_convolution. rewrite circular_convolution_lookup by lia. done.
    + rewrite list_lookup_insert_ne by done. apply Hi. lia.
  - exists l'. done.
Qed.
End parts.

Local Open Scope R_scope.
Local Notation C := (R * R)%type.
Local Notation conv := (circular_convolution (0, 0) cadd cmul).
Section real.
Context `{F : Fft R} (HF : computes_dft).

Lemma scaled_products n (X Y : list C) : zip_with (scaled_product (INR n)) X Y = map (rscale (1 / INR n)) (zip_with cmul X Y).
Proof.
  revert Y. induction X as [|a X IH]; intros [|b Y]; try done. cbn [zip_with map]. rewrite IH. f_equal.
  unfold scaled_product, rscale. cbn -[cmul INR]. generalize (cmul a b). intros [u w]. cbn -[INR]. unfold Rdiv. f_equal; ring.
Qed.

(** A block: the product of the spectra, back in the time domain *)
Lemma block_convolution (x h : list C) : (length h <= length x)%nat -> x <> [] ->
  fft_inverse (zip_with (scaled_product (INR (length x))) (fft_forward x) (fft_forward (h ++ replicate (length x - length h) (0, 0)))) = conv 1 x h.
Proof using HF.
  intros Hl Hx. destruct HF as (F1 & F2 & _). rewrite F1, F1, F2, scaled_products, dft_scale, <- (convolution_theorem (-1) x h) by done.
  rewrite (dft_dft (-1) 1) by (auto || done). rewrite (circular_convolution_length (0, 0) cadd cmul 1 x h).
  rewrite scale_back; [done|]. by destruct x.
Qed.
End real.

(** What the last points of a block are *)
Lemma block_points (x h : list C) p L t : (length h <= L)%nat -> (p + L <= length x)%nat -> (length h - 1 <= t < L)%nat -> h <> [] ->
  conv 1 (take L (drop p x)) h !! t = centred_convolution (0, 0) cadd cmul x h !! (p + length h / 2 + t - (length h - 1))%nat.
Proof.
  intros Hl Hp Ht Hh. assert (0 < length h)%nat by (destruct h; [done | cbn; lia]).
  assert (Hlb : length (take L (drop p x)) = L) by (rewrite take_length, drop_length; lia).
  unfold centred_convolution. rewrite !circular_convolution_lookup by lia. f_equal. unfold series. f_equal. apply map_ext_in. intros k Hk. apply in_seq in Hk. f_equal.
  unfold around. rewrite Hlb, !circular_small by lia. rewrite lookup_take by lia. rewrite lookup_drop. do 2 f_equal. lia.
Qed.

Lemma window_ext {P} (l l' : list P) a k : (forall i, (a <= i < a + k)%nat -> l !! i = l' !! i) -> take k (drop a l) = take k (drop a l').
Proof.
  intros Hi. apply list_eq. intros j. destruct (decide (j < k)%nat) as [Hj|Hj].
  - rewrite !lookup_take, !lookup_drop by done. apply Hi. lia.
  - rewrite !lookup_take_ge by lia. done.
Qed.

Section loop.
Context `{F : Fft R} (HF : computes_dft).
Context (x h : list C) (L : nat).
Context (Hm : (2 <= length h)%nat) (HmL : (4 * (length h - 1) <= L)%nat) (HLn : (L <= length x)%nat).
Local Notation m := (length h).
Local Notation n := (length x).
Local Notation st := (L - (m - 1))%nat.
Local Notation y := (centred_convolution (0, 0) cadd cmul x h).
Local Notation filter := (fft_forward (h ++ replicate (L - m) (0, 0))).

Lemma overlap_block_spec p before after (sig sig1 : list C) : before sig = Done sig1 -> length sig1 = n -> (p + L <= n)%nat ->
  (forall i, (p <= i < p + L)%nat -> sig1 !! i = x !! i) ->
  exists sig2, length sig2 = n /\ (forall i, (i < p \/ p + L <= i)%nat -> sig2 !! i = sig1 !! i) /\
    forall sig3, after sig2 = Done sig3 ->
      overlap_block L st (INR L) filter p before after sig = Done (sig3, take (m - 1) (drop (p + st) x), conv 1 (take L (drop p x)) h).
Proof using HF Hm HmL HLn.
  intros Hb Hl Hp Hx. unfold overlap_block. rewrite Hb, bind_Done.
  assert (Hblk : slice sig1 p (L + p) = Done (take L (drop p x))).
  { rewrite slice_Done by lia. replace (L + p - p)%nat with L by lia. f_equal. by apply window_ext. }
  assert (Hob : slice sig1 (p + st) (p + L) = Done (take (m - 1) (drop (p + st) x))).
  { rewrite slice_Done by lia. replace (p + L - (p + st))%nat with (m - 1)%nat by lia. f_equal. apply window_ext. intros i Hi. apply Hx. lia. }
  set (blk := take L (drop p x)) in *. assert (Hlb : length blk = L) by (unfold blk; rewrite take_length, drop_length; lia).
  pose proof (proj2 (proj2 HF) blk) as Hrest. rewrite Hlb in Hrest.
  destruct (splice_lookup sig1 p (fft_rest blk)) as (sig2 & E2 & Hl2 & _ & Hout); [lia|]. rewrite Hrest in Hout.
  exists sig2. split; [lia|]. split; [done|]. intros sig3 H3.
  rewrite Hob, bind_Done, Hblk, bind_Done, E2, bind_Done, H3, bind_Done. f_equal. f_equal.
  rewrite <- (block_convolution HF blk h) by (try lia; intros E; rewrite E in Hlb; cbn in Hlb; lia). by rewrite Hlb.
Qed.

Definition inv (st' : nat * list C * list C * list C) : Prop :=
  let '(p, sig, ob, tmp) := st' in
  length sig = n /\ ob = take (m - 1) (drop p x) /\ tmp = conv 1 (take L (drop (p - st) x)) h /\
  (forall i, (i < p - st + m / 2)%nat -> sig !! i = y !! i) /\ (forall i, (p + (m - 1) <= i)%nat -> sig !! i = x !! i) /\
  (st <= p)%nat /\ (p + (m - 1) <= n)%nat /\ ((p = st \/ p - st + L < n) /\ exists k, p = k * st)%nat.

Lemma store_block p (sig tmp : list C) : length sig = n -> tmp = conv 1 (take L (drop (p - st) x)) h -> (st <= p)%nat -> (p + (m - 1) <= n)%nat ->
  (forall i, (i < p - st + m / 2)%nat -> sig !! i = y !! i) ->
  exists src sig', slice tmp (m - 1) L = Done src /\ usub p st = Done (p - st)%nat /\ copy_into sig (p - st + m / 2) (p + m / 2) src = Done sig' /\
    length sig' = n /\ (forall i, (i < p + m / 2)%nat -> sig' !! i = y !! i) /\ (forall i, (p + m / 2 <= i)%nat -> sig' !! i = sig !! i).
Proof using Hm HmL HLn.
  intros Hl -> Hp Hpn Hy.
  assert (Hlt : length (conv 1 (take L (drop (p - st) x)) h) = L) by (rewrite circular_convolution_length, take_length, drop_length; lia).
  rewrite slice_Done by lia. eexists. destruct (copy_into_lookup sig (p - st + m / 2) (p + m / 2) (take (L - (m - 1)) (drop (m - 1) (conv 1 (take L (drop (p - st) x)) h)))) as (sig' & E & Hl' & Hin & Hout).
  { lia. } { rewrite Hl. lia. } { rewrite take_length, drop_length, Hlt. lia. }
  exists sig'. split; [done|]. split; [by apply usub_Done|]. split; [done|]. split; [lia|]. split.
  - intros i Hi. destruct (decide (i < p - st + m / 2)%nat) as [Hi2|Hi2].
    + rewrite Hout by (by left). by apply Hy.
    + rewrite Hin by lia. rewrite lookup_take by lia. rewrite lookup_drop. rewrite block_points; try lia.
      * f_equal. lia.
      * intros E2. rewrite E2 in Hm. cbn in Hm. lia.
  - intros i Hi. apply Hout. by right.
Qed.

Lemma main_loop fuel (s0 : nat * list C * list C * list C) : inv s0 -> (n < fuel)%nat ->
  exists p sig ob tmp, while_ fuel (fun '(position, _, _, _) => (position + L <? n)%nat)
    (fun '(position, signal, overlap_buffer, tmp) =>
       '(signal, overlap_buffer, tmp) ← overlap_block L st (INR L) filter position
         (fun signal => copy_into signal position (position + (m - 1)) overlap_buffer)
         (fun signal =>
            src ← slice tmp (m - 1) L;
            from ← usub position st;
            copy_into signal (from + m / 2) (position + m / 2) src) signal;
       Done ((position + st)%nat, signal, overlap_buffer, tmp)) s0 = Done (p, sig, ob, tmp) /\ inv (p, sig, ob, tmp) /\ (n <= p + L)%nat.
Proof using HF Hm HmL HLn.
  intros H0 Hf.
  match goal with |- context [while_ fuel ?cond ?body s0] => destruct (while_inv inv (fun '(p, _, _, _) => (n - p)%nat) fuel cond body s0) as ([[[p sig] ob] tmp] & E & HI & Hc) end.
  - done.
  - destruct s0 as [[[p ?] ?] ?]. lia.
  - clear s0 H0. intros [[[p sig] ob] tmp] (Hl & Hob & Htmp & Hy & Hx & Hp & Hpn & Hk) Hc. apply Nat.ltb_lt in Hc.
    assert (Hlob : length ob = (m - 1)%nat) by (rewrite Hob, take_length, drop_length; lia).
    destruct (copy_into_lookup sig p (p + (m - 1)) ob) as (sig1 & E1 & Hl1 & Hin1 & Hout1); [lia | lia | lia |].
    assert (Hx1 : forall i, (p <= i)%nat -> sig1 !! i = x !! i).
    { intros i Hi. destruct (decide (i < p + (m - 1))%nat) as [Hi2|Hi2].
      - rewrite Hin1 by lia. rewrite Hob, lookup_take, lookup_drop by lia. f_equal. lia.
      - rewrite Hout1 by lia. apply Hx. lia. }
    destruct (overlap_block_spec p (fun signal => copy_into signal p (p + (m - 1)) ob)
      (fun signal => src ← slice tmp (m - 1) L; from ← usub p st; copy_into signal (from + m / 2) (p + m / 2) src) sig sig1) as (sig2 & Hl2 & Hout2 & Hblock).
    { done. } { lia. } { lia. } { intros i Hi. apply Hx1. lia. }
    destruct (store_block p sig2 tmp Hl2 Htmp Hp Hpn) as (src & sig3 & Es & Eu & Ec & Hl3 & Hy3 & Hout3).
    { intros i Hi. rewrite Hout2 by lia. rewrite Hout1 by lia. by apply Hy. }
    rewrite (Hblock sig3). 2:{ by rewrite Es, bind_Done, Eu, bind_Done. }
    rewrite bind_Done. eexists. split; [reflexivity|]. split; [|lia]. unfold inv. replace (p + st - st)%nat with p by lia. split_and!; try done; try lia.
    2:{ destruct Hk as [_ (k & ->)]. exists (S k). lia. }
    + intros i Hi. rewrite Hout3 by lia. rewrite Hout2 by lia. apply Hx1. lia.
  - exists p, sig, ob, tmp. split; [exact E|]. split; [done|]. apply Nat.ltb_ge in Hc. lia.
Qed.
End loop.

(** ** The whole function *)
Lemma pad_filter (junk : list R) (h : list C) L : length junk = (2 * L)%nat -> (length h < L)%nat ->
  exists pd w w', copy_into junk 0 (2 * length h) (complex_to_array h) = Done pd /\
    construct ToComplexTime (Storage KSliceMut (length pd) pd) = Done w /\
    Model_Vec.resize n0 w (2 * length h) = (set_valid_len w (2 * length h), Ok tt) /\
    zero_pad n0 (set_valid_len w (2 * length h)) L End = Done (w', Ok tt) /\
    slice (elems w') 0 (2 * L) = Done (complex_to_array (h ++ replicate (L - length h) (0, 0))).
Proof.
  intros Hj Hh. rewrite copy_into_Done by (rewrite ?complex_to_array_length; lia). cbn [take app].
  set (pd := complex_to_array h ++ drop (2 * length h) junk).
  assert (Hlp : length pd = (2 * L)%nat) by (unfold pd; rewrite app_length, complex_to_array_length, drop_length; lia).
  exists pd. unfold construct, s_len. cbn [s_elems s_kind]. rewrite Hlp, even_double.
  set (w := DVec _ _ _ _ _). exists w.
  assert (Hodd : forall k, Nat.odd (2 * k) = false) by (intros k; rewrite <- Nat.negb_even, even_double; done).
  assert (Hal : alloc_len w = (2 * L)%nat) by (exact Hlp).
  assert (Hres : forall k l, (k <= L)%nat -> Model_Vec.resize n0 (set_valid_len w l) (2 * k) = (set_valid_len w (2 * k), Ok tt)).
  { intros k l Hk. unfold Model_Vec.resize. change (is_complex (set_valid_len w l)) with true. rewrite Hodd. cbn [andb].
    change (alloc_len (set_valid_len w l)) with (alloc_len w). rewrite Hal. by rewrite (proj2 (Nat.ltb_ge _ _)) by lia. }
  assert (Hw : cplx (set_valid_len w (2 * length h)) h).
  { split; [done|]. apply vdata_intro with (drop (2 * length h) junk); [done|]. by rewrite complex_to_array_length. }
  destruct (zero_pad_cplx n0 (set_valid_len w (2 * length h)) h L End Hw Hh) as [(e & _ & E)|(w' & E & _ & Hw')].
  { rewrite Hres in E by lia. discriminate. }
  exists w'. split; [done|]. split; [done|]. split; [exact (Hres (length h) (2 * L)%nat ltac:(lia))|]. split; [exact E|].
  destruct (vdata_inv w' _ (proj2 Hw')) as (E1 & _). pose proof (proj2 Hw') as E2. unfold vdata in E2. rewrite E1, complex_to_array_length in E2.
  cbn [padded] in E2. rewrite app_length in E2. unfold zeros in E2. rewrite replicate_length in E2. replace (length h + (L - length h))%nat with L in E2 by lia. exact E2.
Qed.

(** A slice of an array with an even number of elements, as complex numbers *)
Lemma some_points (l : list R) a b k : (a + 2 * k = b)%nat -> (b <= length l)%nat -> exists c, slice l a b = Done (complex_to_array c) /\ length c = k.
Proof.
  intros E Hb. rewrite slice_Done by lia. set (s := take _ _).
  assert (Hl : length s = (2 * k)%nat) by (unfold s; rewrite take_length, drop_length; lia).
  exists (pairs_of s). split.
  - f_equal. symmetry. apply complex_to_array_pairs_of. by rewrite Hl, even_double.
  - rewrite pairs_of_length, Hl. by rewrite div2_double.
Qed.

Definition overlap_fft_len (m wanted L : nat) : Prop := exists k, next_power_of_two (4 * (m - 1)) = Done k /\ L = Nat.max wanted k.

Section whole.
Context `{F : Fft R} (HF : computes_dft).
Theorem overlap_discard_spec b (v o : dvec R) x h wanted L :
  cplx v x -> cplx o h -> whole_points o -> meta_agree v o -> (2 <= length h)%nat -> Nat.even wanted = true ->
  overlap_fft_len (length h) wanted L -> (L <= length x)%nat ->
  spare b (6 * L + 2 * Nat.max (fft_inplace_scratch_len L) (fft_outofplace_scratch_len L) + length x) ->
  exists v' b' y P, overlap_discard b v o wanted = Done (v', b', Ok tt) /\ cplx v' y /\ same_meta v v' /\ same_rest v v' /\ length y = length x /\
    (L - (length h - 1) <= P)%nat /\ (length x <= P + L)%nat /\ (P + (length h - 1) <= length x)%nat /\ (P = L - (length h - 1) \/ P + (length h - 1) < length x)%nat /\
    (exists k, P = k * (L - (length h - 1)))%nat /\
    (forall i, (i < P + length h / 2 \/ length x - (length x - length x mod L) / 2 <= i)%nat -> y !! i = centred_convolution (0, 0) complex_sum complex_product x h !! i) /\
    (forall i, (P + (length h - 1) <= i < length x - (length x - length x mod L) / 2)%nat -> y !! i = x !! i).
Proof using HF.
  intros Hv Ho Hw Hm Hh Hwe (K & EK & HL) HLx Hb.
  assert (Hmd : meta_disagree v o = false) by (destruct (meta_disagree v o) eqn:Em; [by apply meta_disagree_spec in Em | done]).
  unfold overlap_discard. rewrite (proj1 Hv), Hmd. cbn [negb].
  rewrite (points_cplx v x Hv), (points_cplx o h Ho). cbv zeta.
  rewrite (usub_Done (length h) 1) by lia. rewrite bind_Done, EK, bind_Done.
  destruct (next_power_of_two_spec (4 * (length h - 1))) as (K' & EK' & HK & HKe); [lia|]. rewrite EK in EK'. injection EK' as <-.
  replace (if (K <? wanted)%nat then wanted else K) with L.
  2:{ destruct (K <? wanted)%nat eqn:Ek; [apply Nat.ltb_lt in Ek | apply Nat.ltb_ge in Ek]; lia. }
  assert (HLe : Nat.even L = true).
  { subst L. destruct (Nat.max_spec wanted K) as [[_ ->]|[_ ->]]; [|done]. apply HKe. rewrite Nat.even_mul. done. }
  assert (HLm : (4 * (length h - 1) <= L)%nat) by lia. clear EK HL HK HKe K Hwe wanted.
  rewrite (usub_Done L (length h - 1)) by lia. rewrite bind_Done.
  rewrite (umod_Done (length x) L) by lia. rewrite bind_Done.
  assert (Hmod : (length x mod L < L)%nat) by (apply Nat.mod_upper_bound; lia).
  rewrite (usub_Done (length x) (length x mod L)) by lia. rewrite bind_Done.
  set (sc := (2 * Nat.max _ _)%nat) in *.
  assert (HR : exists R2, (length x - length x mod L = 2 * R2)%nat).
  { apply Nat.even_spec in HLe as (q & Hq). exists (q * (length x / L))%nat. pose proof (Nat.div_mod (length x) L ltac:(lia)) as Hdm. rewrite Hq in Hdm at 2. rewrite Hq in *. nia. }
  destruct HR as (R2 & HR). rewrite HR. rewrite div2_double.
  destruct (borrow_spare b (2 * L + sc + 2 * L + 2 * L + 2 * R2)%nat) as (array & -> & Hla & _).
  { unfold spare in *. destruct b; try done. lia. }
  rewrite bind_Done.
  destruct (some_points array (sc + 2 * L) (sc + 2 * L + 2 * L) L) as (tmp & -> & Htmp); [lia | lia |]. rewrite bind_Done.
  destruct (some_points array (sc + 2 * L + 2 * L) (sc + 2 * L + 2 * L + 2 * L) L) as (pj & -> & Hpj); [lia | lia |]. rewrite bind_Done.
  destruct (some_points array (sc + 2 * L + 2 * L + 2 * L) (sc + 2 * L + 2 * L + 2 * L + 2 * R2) R2) as (en & -> & Hen); [lia | lia |]. rewrite bind_Done.
  pose proof (vdata_inv o _ (proj2 Ho)) as (Hno & _). rewrite complex_to_array_length in Hno.
  pose proof (vdata_inv v _ (proj2 Hv)) as (Hnv & _). rewrite complex_to_array_length in Hnv.
  pose proof (proj2 Ho) as Hdo. unfold vdata in Hdo. rewrite Hno in Hdo. rewrite Hdo, bind_Done.
  destruct (pad_filter (complex_to_array pj) h L) as (pd & w & w' & -> & Ew & Er & Ez & Ep); [rewrite complex_to_array_length; lia | lia |].
  rewrite bind_Done, Ew, bind_Done, Er, Ez, bind_Done.
  destruct (vdata_split o _ (proj2 Ho)) as (rest & Eo & _).
  assert (Erest : exists hr, rest = complex_to_array hr).
  { exists (pairs_of rest). symmetry. apply complex_to_array_pairs_of. specialize (Hw (proj1 Ho)). unfold alloc_len, s_len in Hw. unfold elems in Eo. rewrite Eo, app_length, complex_to_array_length in Hw.
    rewrite Nat.even_add, even_double in Hw. by destruct (Nat.even (length rest)). }
  destruct Erest as (hr & ->). rewrite Eo, <- complex_to_array_app, (array_to_complex_Done (h ++ hr)), bind_Done, Ep, bind_Done, (array_to_complex_Done (h ++ _)), bind_Done.
  pose proof (proj2 Hv) as Hdv. unfold vdata in Hdv. rewrite Hnv in Hdv. rewrite Hdv, bind_Done, (array_to_complex_Done x), bind_Done, (array_to_complex_Done tmp), bind_Done, (array_to_complex_Done en), bind_Done.
  assert (Hx0 : x <> []) by (intros E; rewrite E in HLx; cbn in HLx; lia).
  destruct (scalar_part_spec x h hr tmp (length h / 2) 0 Hx0) as (tmp' & -> & Htmp' & Hbeg); [lia | lia |]. rewrite bind_Done.
  rewrite Hen, (usub_Done (length x) R2) by lia. rewrite bind_Done.
  destruct (scalar_part_spec x h hr en R2 (length x - R2) Hx0) as (en' & -> & Hen' & Hend); [lia | lia |]. rewrite bind_Done.
  change (nofnat L) with (INR L).
  destruct (overlap_block_spec HF x h L Hh HLm HLx 0 (fun signal => Done signal)
    (fun signal => src ← slice tmp' 0 (length h / 2); copy_into signal 0 (length h / 2) src) x x) as (s1 & Hs1 & Hout1 & Hblock); [done | done | lia | done |].
  destruct (copy_into_lookup s1 0 (length h / 2) (take (length h / 2) tmp')) as (s2 & Es2 & Hs2 & Hin2 & Hout2); [lia | lia | rewrite take_length; lia |].
  rewrite (Hblock s2).
  2:{ rewrite slice_Done by lia. rewrite bind_Done, drop_0, Nat.sub_0_r. exact Es2. }
  rewrite bind_Done.
  destruct (main_loop HF x h L Hh HLm HLx (length x + 1) ((L - (length h - 1))%nat, s2, take (length h - 1) (drop (0 + (L - (length h - 1))) x), conv 1 (take L (drop 0 x)) h)) as (P & sg & ob & tm & -> & HI & Hend1).
  { unfold inv. rewrite Nat.sub_diag, Nat.add_0_l. split_and!; try done; try lia.
    3:{ exists 1%nat. lia. }
    - intros i Hi. rewrite Hin2 by lia. rewrite lookup_take by lia. rewrite Nat.sub_0_r. apply Hbeg. lia.
    - intros i Hi. rewrite Hout2 by lia. apply Hout1. lia. }
  { lia. }
  rewrite bind_Done. destruct HI as (Hlsg & Hob & Htm & Hy & Hx & HP1 & HP2 & HP3).
  destruct (store_block x h L Hh HLm HLx P sg tm Hlsg Htm HP1 HP2 Hy) as (src & sg' & Es & Eu & Ec & Hlsg' & Hy' & Hkeep).
  rewrite Es, bind_Done, Eu, bind_Done, Ec, !bind_Done, Hlsg'.
  destruct (copy_into_lookup sg' (length x - R2) (length x) en') as (sg2 & -> & Hl2 & Hin3 & Hout3); [lia | lia | lia |]. rewrite bind_Done.
  destruct (vdata_split v _ (proj2 Hv)) as (vr & Ev & _).
  assert (Hlc : length (complex_to_array sg2) = length (complex_to_array x)) by (rewrite !complex_to_array_length; lia).
  rewrite Ev, splice_Done by (rewrite app_length; lia). rewrite bind_Done. cbn [take app Nat.add]. rewrite (drop_app_alt (complex_to_array x) vr) by done.
  eexists _, _, sg2, P. split; [done|].
  split. { split; [exact (proj1 Hv)|]. apply vdata_intro with vr; [done|]. rewrite Hlc, complex_to_array_length. exact Hnv. }
  split; [done|].
  split. { split; [done|]. split; [done|]. split; [done|]. change (valid_len (set_elems v (complex_to_array sg2 ++ vr))) with (valid_len v). change (elems (set_elems v (complex_to_array sg2 ++ vr))) with (complex_to_array sg2 ++ vr). rewrite Ev, Hnv. rewrite (drop_app_alt (complex_to_array x) vr), (drop_app_alt (complex_to_array sg2) vr); [done | rewrite Hlc | ]; by rewrite complex_to_array_length. }
  split; [lia|]. split; [lia|]. split; [lia|]. split; [lia|]. split; [lia|]. split; [exact (proj2 HP3)|]. split.
  - intros i Hi. destruct (decide (length x - R2 <= i)%nat) as [Hi2|Hi2].
    + destruct (decide (i < length x)%nat) as [Hi3|Hi3].
      * rewrite Hin3 by lia. rewrite Hend by lia. f_equal. lia.
      * rewrite !lookup_ge_None_2; try done; [unfold centred_convolution; rewrite circular_convolution_length; lia | lia].
    + rewrite Hout3 by lia. apply Hy'. lia.
  - intros i Hi. rewrite Hout3 by lia. rewrite Hkeep by lia. apply Hx. lia.
Qed.
End whole.
