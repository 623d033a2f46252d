From Verif Require Export Proof_ConvSimd.
From stdpp Require Import list_numbers.

Lemma align_long r addr n : reg_ok r -> elem_aligned r addr -> half_aligned r addr -> 2 * reg_len r <= n ->
  exists left right k, calc_data_alignment_reqs r addr n = Done (SimdPartition left right n) /\ left < reg_len r /\ right < reg_len r /\
    n = left + k * reg_len r + right /\ center_range (SimdPartition left right n) = Done (left, n - right) /\
    (addr + left * elem_size r) mod reg_bytes r = 0 /\ (point_aligned r addr -> left mod 2 = 0).
Proof.
  intros Hr Ha Hh Hn. destruct Hr as (He & Hl & Hev). assert (Hb : 0 < reg_bytes r) by (unfold reg_bytes; nia).
  assert (Hm : exists left, addr mod reg_bytes r = left * elem_size r).
  { unfold elem_aligned in Ha. apply Nat.mod_divide in Ha as [q Hq]; [|lia].
    exists (q mod reg_len r). rewrite Hq. unfold reg_bytes. by rewrite Nat.mul_mod_distr_r by lia. }
  destruct Hm as [left Hleft]. pose proof (Nat.mod_upper_bound addr (reg_bytes r) ltac:(lia)) as Hlt.
  rewrite Hleft in Hlt. assert (Hll : left < reg_len r). { unfold reg_bytes in Hlt. apply Nat.mul_lt_mono_pos_r in Hlt; lia. }
  set (right := (n - left) mod reg_len r). exists left, right, ((n - left) / reg_len r).
  assert (Hr' : right < reg_len r) by (apply Nat.mod_upper_bound; lia).
  assert (Hsum : n = left + (n - left) / reg_len r * reg_len r + right).
  { pose proof (Nat.div_mod (n - left) (reg_len r) ltac:(lia)). fold right in H. lia. }
  split_and!; try done.
  - unfold calc_data_alignment_reqs. assert (E1 : umod addr (reg_bytes r) = Done (addr mod reg_bytes r)) by (destruct (reg_bytes r); [lia|done]).
    rewrite E1, bind_Done, Hleft. assert (E2 : umod (left * elem_size r) (elem_size r) = Done 0).
    { rewrite <- (Nat.mod_mul left (elem_size r)) by lia. destruct (elem_size r); [lia|done]. }
    rewrite E2, bind_Done. cbn [Nat.eqb assert_]. rewrite bind_Done.
    assert (E3 : udiv (left * elem_size r) (elem_size r) = Done left). { rewrite <- (Nat.div_mul left (elem_size r)) at 2 by lia. destruct (elem_size r); [lia|done]. }
    rewrite E3, bind_Done. destruct (n <? left + reg_len r) eqn:E; [apply Nat.ltb_lt in E; lia|].
    assert (E4 : umod (n - left) (reg_len r) = Done right) by (subst right; destruct (reg_len r); [lia|done]). by rewrite E4.
  - unfold center_range. cbn [p_left p_len p_right]. destruct (left =? n) eqn:E; [apply Nat.eqb_eq in E; lia|]. rewrite usub_Done by lia. done.
  - rewrite <- Hleft. rewrite Nat.add_mod_idemp_r by lia. unfold half_aligned in Hh. by replace (addr + addr) with (2 * addr) by lia.
  - intros Hp. unfold point_aligned in Hp. apply Nat.mod_divide in Hp as [q Hq]; [|lia].
    apply Nat.even_spec in Hev as [w Hw]. assert (Hd : left * elem_size r = (q mod w) * (2 * elem_size r)).
    { rewrite <- Hleft, Hq. unfold reg_bytes. rewrite Hw. replace (2 * w * elem_size r) with (w * (2 * elem_size r)) by lia. rewrite Nat.mul_mod_distr_r by lia. done. }
    assert (left = (q mod w) * 2) as -> by nia. apply Nat.mod_mul. lia.
Qed.

Section impl.
Context {A : Type} `{Num A} {P : Type} (zero : P) (add mul : P -> P -> P) (st ns : nat) (r : reg_type) (pts : list A -> list P)
    (simd_mul : list A -> list A -> list A) (simd_sum : list A -> P) (convert : list A -> run (list P)) (back : list P -> list A).
Context (V : point_view zero add mul st ns r pts simd_mul simd_sum).

Theorem convolve_simd_impl_spec (Q : dvec A -> list P -> Prop) addr s sched b (v o : dvec A) (D Dh : list A) (x h : list P) shifts :
  reg_ok r -> elem_aligned r addr -> half_aligned r addr -> (st = 1 \/ (st = 2 /\ point_aligned r addr)) ->
  (if is_complex v then 2 else 1) = st -> vdata v = Done D -> pts D = x -> length D = st * length x -> points v = length x ->
  vdata o = Done Dh -> convert Dh = Done h -> points o = length h ->
  create_shifted_copies r o = Done shifts -> good_shifts zero ns r pts h shifts ->
  length h < length x -> 2 * ((length h + 1) / 2 + reg_len r) < length x ->
  (forall f x', length x' = length x -> (forall dest, length dest = length x -> f x dest = Done x') ->
     exists v' b', into_buffer convert back b v f = Done (v', b') /\ Q v' x') ->
  exists v' b', convolve_signal_simd_impl zero add mul convert back simd_mul simd_sum r addr s sched b v o = Done (v', b') /\
    Q v' (centred_convolution zero add mul x h).
Proof.
  intros Hr Ha Hh Hst Hc Hv Hpt HD Hpv Ho Hoc Hpo Hsh Hgood Hlt Hsize Hbuf. unfold convolve_signal_simd_impl. rewrite Hpv, Hpo. cbv zeta.
  destruct (length h <? length x) eqn:E; [clear E|apply Nat.ltb_ge in E; lia]. cbn [assert_]. rewrite bind_Done.
  apply Hbuf. { apply circular_convolution_length. }
  intros dest Hd. rewrite Ho, bind_Done, (vdata_again o Dh Ho), bind_Done, Hoc, bind_Done.
  rewrite (slice_Done h) by lia. rewrite drop_0, Nat.sub_0_r, firstn_all, bind_Done, Hsh, bind_Done.
  set (m := length h) in *. set (conv := m - m / 2) in *.
  assert (Hconv : conv = (m + 1) / 2). { subst conv. pose proof (Nat.div_mod (m + 1) 2). pose proof (Nat.mod_upper_bound (m + 1) 2). pose proof (Nat.div_mod m 2). pose proof (Nat.mod_upper_bound m 2). lia. }
  assert (Hmc : m <= 2 * conv) by (subst conv; pose proof (Nat.div_mod m 2); pose proof (Nat.mod_upper_bound m 2); lia).
  rewrite <- Hconv in Hsize. clearbody conv. set (w := reg_len r) in *.
  pose proof (pv_ns _ _ _ _ _ _ _ _ _ V) as Hns. pose proof (pv_step _ _ _ _ _ _ _ _ _ V) as Hst0. pose proof (pv_len _ _ _ _ _ _ _ _ _ V) as Hw. fold w in Hw.
  pose proof (reals_len v D Hv) as Hlen. destruct (align_long r addr (len v)) as (left & right & k & -> & Hl1 & Hr1 & Hn & Hcr & Hal & Hev); try done.
  { rewrite Hlen, HD. fold w. destruct Hst as [->|[-> _]]; lia. }
  fold w in Hl1, Hr1, Hn. rewrite bind_Done, Hcr, bind_Done. cbn [p_left].
  rewrite Hc. assert (HL : exists L, left = st * L). { destruct Hst as [->|[-> Hp]]; [exists left; lia|]. exists (left / 2). apply Nat.div_exact; [lia|]. by apply Hev. }
  destruct HL as [L HL]. assert (HLdiv : left / st = L) by (rewrite HL, Nat.mul_comm; apply Nat.div_mul; lia). rewrite HLdiv.
  destruct (vdata_split v D Hv) as (rest & He & Hnv).
  (* the center *)
  set (C := take (k * w) (drop left D)). assert (HCl : length C = k * w) by (subst C; rewrite take_length, drop_length; lia).
  assert (Hsl : slice (elems v) left (len v - right) = Done C).
  { rewrite He. rewrite slice_Done by (rewrite ?app_length; lia). f_equal. replace (len v - right - left) with (k * w) by lia.
    rewrite drop_app_le by lia. rewrite take_app_le by (rewrite drop_length; lia). done. }
  rewrite Hsl, bind_Done. unfold regs_of at 1. assert (Hchk : regs_check r (addr + left * elem_size r) (length C) = true).
  { unfold regs_check. apply orb_true_iff. right. rewrite Hal. cbn [Nat.eqb andb]. apply Nat.eqb_eq. rewrite HCl. apply Nat.mod_mul. subst w. destruct Hr as (_ & ? & _). lia. }
  rewrite Hchk. cbn [assert_]. rewrite !bind_Done.
  assert (Hww : 0 < w) by (destruct Hr as (_ & ? & _); done).
  (* its points *)
  assert (Hxn : exists R, length x = L + k * ns + R /\ R <= right).
  { exists (length x - L - k * ns). rewrite Hw in Hn. rewrite Hlen, HD, HL in Hn. nia. }
  destruct Hxn as (R & Hxn & HR).
  assert (Hpts : pts C = take (k * ns) (drop L x)).
  { assert (E1 : pts D = pts (take left D) ++ pts (drop left D)).
    { rewrite <- (pv_app _ _ _ _ _ _ _ _ _ V); [by rewrite take_drop|]. rewrite take_length, Nat.min_l by lia. rewrite HL, Nat.mul_comm. apply Nat.mod_mul. lia. }
    assert (E2 : length (pts (take left D)) = L).
    { pose proof (pv_pts _ _ _ _ _ _ _ _ _ V (take left D)) as E. rewrite take_length, Nat.min_l in E by lia. rewrite HL in E at 1 2. rewrite Nat.mul_comm, Nat.mod_mul in E by lia.
      specialize (E eq_refl). nia. }
    subst C. rewrite (view_take zero add mul st ns r pts simd_mul simd_sum V) by (fold w; rewrite drop_length; lia).
    f_equal. rewrite <- Hpt, E1. by rewrite drop_app_alt. }
  rewrite usub_Done by lia. rewrite bind_Done.
  (* the target in three parts *)
  set (q := conv + w) in *. assert (Hcut : q + (length x - q - q) + q = length dest) by lia.
  destruct (cut3 dest q (length x - q - q) q Hcut) as (dL & dC & dR & -> & H1 & H2 & H3).
  assert (Hs1 : slice (dL ++ dC ++ dR) q (length x - q) = Done dC).
  { rewrite slice_Done by (rewrite ?app_length; lia). f_equal. rewrite drop_app_alt by done. replace (length x - q - q) with (length dC) by lia. apply take_app. }
  rewrite Hs1, bind_Done.
  set (val := fun i => series zero add m (fun k => mul (around zero x (Z.of_nat i + Z.of_nat ((m + 1) / 2) - 1 - Z.of_nat k)) (default zero (h !! k)))).
  rewrite (execute_fill s sched (fun t => simd_point simd_mul simd_sum r shifts (chunks_fuel (length C) w C) L conv (q + t)) (fun t => val (q + t))).
  2:{ intros i Hi. subst w. rewrite (simd_point_spec zero add mul st ns r pts simd_mul simd_sum V h x C (length C) shifts L k conv (q + i)); [|done|done|done|done| | |].
      - unfold val. f_equal. fold m. rewrite Hconv. symmetry. apply (foldl_sum_zero add zero (pv_monoid _ _ _ _ _ _ _ _ _ V)).
      - lia.
      - fold m. assert (L <= left) by nia. lia.
      - lia. }
  2:{ left. intros ->. simpl in H2. lia. }
  rewrite bind_Done. rewrite (splice_Done (dL ++ dC ++ dR)) by (rewrite map_length, seq_length, !app_length; lia). rewrite bind_Done.
  rewrite map_length, seq_length. assert (Et : take q (dL ++ dC ++ dR) = dL) by (by rewrite take_app_alt).
  assert (Ed : drop (q + length dC) (dL ++ dC ++ dR) = dR).
  { rewrite app_assoc. apply drop_app_alt. rewrite app_length. lia. }
  rewrite Et, Ed. set (mid := map (fun t => val (q + t)) (seq 0 (length dC))).
  assert (Hml : length mid = length dC) by (subst mid; by rewrite map_length, seq_length).
  replace (length (dL ++ mid ++ dR)) with (length dL + length mid + length dR) by (rewrite !app_length; lia).
  assert (Hval : forall i, convolve_iteration zero add mul x h i conv m = Done (val i)).
  { intros i. rewrite convolve_iteration_spec by (done || (intros ->; simpl in *; lia)). unfold val. by rewrite <- Hconv. }
  replace (edge_update (length dL + length mid + length dR) q q) with (edge_update (A:=P) (length dL + length mid + length dR) (length dL) (length dR)) by (by rewrite H1, H3).
  rewrite (edge_update_spec _ (fun i _ => val i)) by (intros; apply Hval).
  f_equal. unfold centred_convolution, circular_convolution. fold m. fold val. rewrite !imap_const_seq.
  transitivity (map val (seq 0 (length dL)) ++ map val (seq q (length dC)) ++ map val (seq (q + length dC) (length dR))).
  - f_equal. f_equal.
    + subst mid. pose proof (fmap_add_seq q 0 (length dC)) as E. rewrite Nat.add_0_r in E. rewrite <- E. by rewrite <- list_fmap_compose.
    + rewrite H1, Hml. pose proof (fmap_add_seq (q + length dC) 0 (length dR)) as E. rewrite Nat.add_0_r in E. rewrite <- E. by rewrite <- list_fmap_compose.
  - rewrite <- !map_app. f_equal. rewrite <- seq_app, H1, H3. rewrite <- seq_app. f_equal. lia.
Qed.
End impl.

(** ** The two number spaces *)
Section views.
Context {A : Type} `{Num A} (R : exact_ring A).
Let R' : ring_theory n0 n1 nadd nmul nsub nopp eq := R.
Add Ring Aring : R'.

Lemma real_view r : 0 < reg_len r -> point_view n0 nadd nmul 1 (reg_len r) r (fun l : list A => l) (reg_bin nmul) reg_sum_real.
Proof.
  intros Hr. split; try done.
  - by apply real_monoid.
  - intros x. ring.
  - lia.
  - lia.
  - intros a _. lia.
  - intros a b Ha Hb. split; [|done]. unfold reg_bin. rewrite zip_with_length. lia.
  - intros a Ha. unfold reg_sum_real. apply reg_sum_sum. by apply real_monoid.
Qed.
Lemma complex_view r : 0 < reg_len r -> Nat.even (reg_len r) = true ->
  point_view (n0, n0) cadd cmul 2 (reg_len r / 2) r (pairs_of (A:=A)) (reg_cbin cmul) reg_sum_complex.
Proof.
  intros Hr Hev. pose proof Hev as Hev'. apply Nat.even_spec in Hev' as [k Hk].
  assert (Hmod : forall n, n mod 2 = 0 -> Nat.even n = true).
  { intros n [q ->]%Nat.mod_divide; [|done]. rewrite Nat.even_mul. by rewrite orb_true_r. }
  split; try done.
  - by apply complex_monoid.
  - intros [x y]. unfold cmul. cbn [fst snd]. f_equal; ring.
  - lia.
  - rewrite Hk, div2_double. lia.
  - rewrite Hk, div2_double. lia.
  - intros a b Ha. apply pairs_of_app_even. by apply Hmod.
  - intros a Ha. rewrite pairs_of_length. by apply Nat.div_exact.
  - intros a b Ha Hb. unfold reg_cbin. rewrite complex_to_array_length, zip_with_length, !pairs_of_length, pairs_of_complex_to_array, Ha, Hb.
    split; [|done]. rewrite Nat.min_id, Hk, div2_double. lia.
  - intros a b Ha Hb. apply reg_bin_pairs; [congruence | by rewrite Ha].
  - intros a Ha. unfold reg_sum_complex. apply reg_sum_sum. by apply complex_monoid.
  - by apply pairs_of_splat.
Qed.

Lemma shift_bounds m w sh : 0 < w -> m + sh <= (m + sh + w - 1) / w * w /\ (m + sh + w - 1) / w * w < m + sh + w.
Proof.
  intros Hw. pose proof (Nat.div_mod (m + sh + w - 1) w ltac:(lia)). pose proof (Nat.mod_upper_bound (m + sh + w - 1) w ltac:(lia)). nia.
Qed.

Lemma shifts_real r (o : dvec A) h : 0 < reg_len r -> reals o h ->
  exists shifts, create_shifted_copies r o = Done shifts /\ good_shifts n0 (reg_len r) r (fun l => l) h shifts.
Proof.
  intros Hr [Hc Hv]. unfold create_shifted_copies. rewrite Hc. cbv zeta. set (w := reg_len r) in *.
  assert (Hu : udiv w 1 = Done w) by (cbn [udiv]; by rewrite Nat.div_1_r). rewrite Hu, bind_Done, Hv, bind_Done.
  match goal with |- context [loop ?aa ?bb ?cc ?dd] => destruct (loop_inv
    (fun i copies => length copies = i /\ forall s, s < i -> exists copy, copies !! s = Some copy /\ Forall (fun b => length b = w) copy /\
        (length h + (w - s) mod w <= length copy * w /\ length copy * w < length h + (w - s) mod w + w) /\
        concat copy = map (shifted_at n0 ((w - s) mod w) h) (rev (seq 0 (length copy * w)))) aa bb cc dd) as (shifts & -> & Hl & Hs) end.
  - split; [done|]. lia.
  - intros i copies Hi [Hl Hs]. assert (Hm : umod (w - i) w = Done ((w - i) mod w)) by (destruct w; [lia|done]).
    rewrite Hm, bind_Done, Nat.mul_1_r.
    destruct (shifted_copy_real w ((w - i) mod w) h Hr) as (copy & -> & Hcl & Hf & Hcc). rewrite bind_Done. eexists. split; [done|].
    split; [rewrite app_length; cbn [length]; lia|]. intros s Hsi. destruct (decide (s < i)) as [Hlt|Hge].
    + destruct (Hs s Hlt) as (c & Hc' & ?). exists c. split; [|done]. rewrite lookup_app_l by lia. done.
    + assert (s = i) as -> by lia. exists copy. split; [rewrite lookup_app_r by lia; by rewrite Hl, Nat.sub_diag|]. split; [done|].
      rewrite Hcl. split; [|done]. apply shift_bounds. done.
  - exists shifts. split; [done|]. split; [done|]. intros s Hsw. destruct (Hs s) as (copy & ?); [lia|]. by exists copy.
Qed.

Lemma shifts_complex r (o : dvec A) h : 0 < reg_len r -> Nat.even (reg_len r) = true -> cplx o h ->
  exists shifts, create_shifted_copies r o = Done shifts /\ good_shifts (n0, n0) (reg_len r / 2) r pairs_of h shifts.
Proof.
  intros Hr Hev [Hc Hv]. unfold create_shifted_copies. rewrite Hc. cbv zeta. apply Nat.even_spec in Hev as [w Hw]. unfold good_shifts. rewrite Hw in *.
  assert (Hu : udiv (2 * w) 2 = Done w) by (cbn [udiv]; by rewrite div2_double). rewrite Hu, bind_Done, Hv, bind_Done, div2_double.
  assert (Hw0 : 0 < w) by lia. clear Hw Hu.
  match goal with |- context [loop ?aa ?bb ?cc ?dd] => destruct (loop_inv
    (fun i copies => length copies = i /\ forall s, s < i -> exists copy, copies !! s = Some copy /\ Forall (fun b => length b = 2 * w) copy /\
        (length h + (w - s) mod w <= length copy * w /\ length copy * w < length h + (w - s) mod w + w) /\
        pairs_of (concat copy) = map (shifted_at (n0, n0) ((w - s) mod w) h) (rev (seq 0 (length copy * w)))) aa bb cc dd) as (shifts & -> & Hl & Hs) end.
  - split; [done|]. lia.
  - intros i copies Hi [Hl Hs]. assert (Hm : umod (w - i) w = Done ((w - i) mod w)) by (destruct w; [lia|done]).
    rewrite Hm, bind_Done, (Nat.mul_comm ((w - i) mod w) 2).
    destruct (shifted_copy_complex w ((w - i) mod w) h Hw0) as (copy & -> & Hcl & Hf & Hcc). rewrite bind_Done. eexists. split; [done|].
    split; [rewrite app_length; cbn [length]; lia|]. intros s Hsi. destruct (decide (s < i)) as [Hlt|Hge].
    + destruct (Hs s Hlt) as (c & Hc' & ?). exists c. split; [|done]. rewrite lookup_app_l by lia. done.
    + assert (s = i) as -> by lia. exists copy. split; [rewrite lookup_app_r by lia; by rewrite Hl, Nat.sub_diag|]. split; [done|].
      rewrite Hcc, pairs_of_complex_to_array, Hcl. split; [|done].
      set (sh := (w - i) mod w). pose proof (shift_bounds (2 * length h) (2 * w) (2 * sh) ltac:(lia)). nia.
  - exists shifts. split; [done|]. split; [done|]. intros s Hsw. destruct (Hs s) as (copy & ?); [lia|]. by exists copy.
Qed.

(** C28, SIMD: the same as the scalar code *)
Theorem convolve_simd_reals r addr s sched b (v o : dvec A) x h : reg_ok r -> elem_aligned r addr -> half_aligned r addr -> reals v x -> reals o h ->
  lends b v (length x) -> length h < length x -> 2 * ((length h + 1) / 2 + reg_len r) < length x ->
  exists v' b', convolve_signal_simd r addr s sched b v o = Done (v', b') /\ reals v' (centred_convolution n0 nadd nmul x h) /\ same_meta v v'.
Proof.
  intros Hr Ha Hh Hv Ho Hb Hl1 Hl2. destruct (shifts_real r o h) as (shifts & Hs & Hg); [apply Hr | done |].
  unfold convolve_signal_simd. rewrite (proj1 Hv).
  destruct (convolve_simd_impl_spec n0 nadd nmul 1 (reg_len r) r (fun l => l) (reg_bin nmul) reg_sum_real as_reals (fun l => l)
     (real_view r ltac:(apply Hr)) (fun v' x' => reals v' x' /\ same_meta v v') addr s sched b v o x h x h shifts) as (v' & b' & ? & ?); try done.
  - by left.
  - by rewrite (proj1 Hv).
  - apply Hv.
  - lia.
  - by apply points_reals.
  - apply Ho.
  - by apply points_reals.
  - intros f x' Hx' Hf. by apply (into_buffer_reals b v x).
  - by exists v', b'.
Qed.
Theorem convolve_simd_cplx r addr s sched b (v o : dvec A) x h : reg_ok r -> elem_aligned r addr -> half_aligned r addr -> point_aligned r addr ->
  cplx v x -> cplx o h -> lends b v (2 * length x) -> length h < length x -> 2 * ((length h + 1) / 2 + reg_len r) < length x ->
  exists v' b', convolve_signal_simd r addr s sched b v o = Done (v', b') /\
    cplx v' (centred_convolution (n0, n0) complex_sum complex_product x h) /\ same_meta v v'.
Proof.
  intros Hr Ha Hh Hp Hv Ho Hb Hl1 Hl2. destruct Hr as (? & ? & Hev) eqn:E. clear E. destruct (shifts_complex r o h) as (shifts & Hs & Hg); [done..|].
  unfold convolve_signal_simd. rewrite (proj1 Hv).
  destruct (convolve_simd_impl_spec (n0, n0) cadd cmul 2 (reg_len r / 2) r pairs_of (reg_cbin cmul) reg_sum_complex as_complex complex_to_array
     (complex_view r ltac:(done) Hev) (fun v' x' => cplx v' x' /\ same_meta v v') addr s sched b v o (complex_to_array x) (complex_to_array h) x h shifts) as (v' & b' & ? & ?); try done.
  - by right.
  - by rewrite (proj1 Hv).
  - apply Hv.
  - apply pairs_of_complex_to_array.
  - rewrite complex_to_array_length. lia.
  - by apply points_cplx.
  - apply Ho.
  - apply array_to_complex_Done.
  - by apply points_cplx.
  - intros f x' Hx' Hf. by apply (into_buffer_cplx b v x).
  - by exists v', b'.
Qed.
End views.
