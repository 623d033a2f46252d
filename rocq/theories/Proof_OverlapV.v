(** Which algorithm [convolve_signal] selects, and what it computes. *)
From Verif Require Export Proof_Overlap Proof_ConvSimdOps.
From stdpp Require Import list_numbers.
Local Open Scope nat_scope.

(** Enough room for the overlap-discard algorithm *)
Definition overlap_room `{F : Fft R} (b : buffer R) (n m : nat) : Prop :=
  forall L, L <= 8 * m -> spare b (6 * L + 2 * Nat.max (fft_inplace_scratch_len L) (fft_outofplace_scratch_len L) + n).

Section errors.
Context {A : Type} `{Num A} `{Flt A} `{Rem A} `{Trig A} `{F : Fft A}.
Lemma convolve_signal_errors r addr s sched b (v o : dvec A) :
  (~ meta_agree v o -> convolve_signal r addr s sched b v o = Done (v, b, Err InputMetaDataMustAgree)) /\
  (meta_agree v o -> vdomain v <> Time -> convolve_signal r addr s sched b v o = Done (v, b, Err InputMustBeInTimeDomain)) /\
  (meta_agree v o -> vdomain v = Time -> points v < points o -> convolve_signal r addr s sched b v o = Done (v, b, Err InvalidArgumentLength)).
Proof.
  assert (Hmd : meta_agree v o -> meta_disagree v o = false) by (intros Hm; destruct (meta_disagree v o) eqn:Em; [by apply meta_disagree_spec in Em | done]).
  unfold convolve_signal. split_and!.
  - intros Hm%meta_disagree_spec. by rewrite Hm.
  - intros Hm Hd. rewrite (Hmd Hm). by destruct (vdomain v).
  - intros Hm Hd Hp. rewrite (Hmd Hm), Hd. cbn [ddomain_eqb negb]. by rewrite (proj2 (Nat.ltb_lt _ _) Hp).
Qed.

Context (Hring : exact_ring A).
Theorem convolve_signal_reals r addr s sched b (v o : dvec A) x h : aligned_all r addr -> reg_len r <= 64 -> reals v x -> reals o h ->
  meta_agree v o -> vdomain v = Time -> length h <= length x -> lends b v (length x) -> x <> [] \/ no_threads_for_nothing Large s ->
  exists v' b', convolve_signal r addr s sched b v o = Done (v', b', Ok tt) /\ reals v' (centred_convolution n0 nadd nmul x h) /\ same_meta v v'.
Proof using Hring.
  intros (Hr & Ha & Hh & Hp) Hr2 Hv Ho Hm Hd Hl Hb Hs. unfold convolve_signal.
  assert (Hmd : meta_disagree v o = false) by (destruct (meta_disagree v o) eqn:Em; [by apply meta_disagree_spec in Em | done]).
  rewrite Hmd, Hd. cbn [ddomain_eqb negb]. rewrite (points_reals v x Hv), (points_reals o h Ho).
  rewrite (proj2 (Nat.ltb_ge _ _) Hl). rewrite (reals_len v x (proj2 Hv)), (reals_len o h (proj2 Ho)).
  destruct ((1000 <? length x) && (length h <=? 202) && (11 <? length h)) eqn:E1.
  { apply andb_prop in E1 as [[E1 E2]%andb_prop E3]. apply Nat.ltb_lt in E1. apply Nat.leb_le in E2.
    destruct (convolve_simd_reals Hring r addr s sched b v o x h Hr Ha Hh Hv Ho Hb) as (v' & b' & -> & ? & ?); [lia | lia |]. rewrite bind_Done. by exists v', b'. }
  rewrite (proj1 Hv). rewrite andb_false_r.
  destruct (convolve_scalar_reals s sched b v o x h Hv Ho Hl Hb Hs) as (v' & b' & -> & ? & ?). rewrite bind_Done. by exists v', b'.
Qed.
End errors.

Section complex.
Context `{F : Fft R} (HF : computes_dft).

Lemma next_power_of_two_le n p k : next_power_of_two n = Done p -> n < 2 ^ k -> p <= 2 ^ k.
Proof using.
  unfold next_power_of_two. intros E Hn. destruct (negb (n =? 0) && _). { injection E as <-. lia. }
  destruct (while_inv (fun '(j, count) => j = n / 2 ^ count /\ (count = 0 \/ 2 ^ (count - 1) <= n)) (fun '(j, _) => j) (n + 1)
    (fun '(n, _) => negb (n =? 0)) (fun '(n, count) => Done (n / 2, count + 1)) (n, 0)) as ([j count] & E' & [Hj Hc] & Hf).
  - split; [by rewrite Nat.pow_0_r, Nat.div_1_r | by left].
  - lia.
  - intros [j count] [Hj Hc] Hf. apply negb_true_iff, Nat.eqb_neq in Hf. exists (j / 2, count + 1). split; [done|]. split.
    + split.
      * rewrite Nat.pow_add_r. cbn [Nat.pow Nat.mul]. rewrite Nat.add_0_r. change (1 + 1) with 2. rewrite <- Nat.div_div; [by rewrite <- Hj | by apply Nat.pow_nonzero | done].
      * right. rewrite Nat.add_sub. destruct (le_lt_dec (2 ^ count) n) as [|Hlt]; [done|]. rewrite Nat.div_small in Hj by done. lia.
    + apply Nat.div_lt; lia.
  - rewrite E', bind_Done in E. injection E as <-. apply Nat.pow_le_mono_r; [done|]. destruct Hc as [->|Hc]; [lia|].
    assert (2 ^ (count - 1) < 2 ^ k) as Hlt by lia. apply Nat.pow_lt_mono_r_iff in Hlt; lia.
Qed.

Lemma next_power_of_two_power n p : next_power_of_two n = Done p -> 0 < n -> exists c, p = 2 ^ c.
Proof using.
  unfold next_power_of_two. intros E Hn. destruct (negb (n =? 0) && (Nat.land n (n - 1) =? 0)) eqn:El.
  - injection E as <-. apply andb_prop in El as [_ El]. apply Nat.eqb_eq in El. exists (Nat.log2 n).
    destruct (Nat.log2_spec n Hn) as [H1 H2]. destruct (decide (n = 2 ^ Nat.log2 n)) as [|Hne]; [done|]. exfalso.
    assert (Hlg : Nat.log2 (n - 1) = Nat.log2 n) by (apply Nat.log2_unique; lia).
    assert (0 < Nat.log2 n) by (destruct (Nat.log2 n) eqn:E0; [cbn in H2; cbn in Hne; lia | lia]).
    assert (Hbit : Nat.testbit (Nat.land n (n - 1)) (Nat.log2 n) = true).
    { rewrite Nat.land_spec, Nat.bit_log2 by lia. rewrite <- Hlg, Nat.bit_log2; [done|]. intros E0. rewrite E0 in Hlg. cbn in Hlg. lia. }
    rewrite El, Nat.bits_0 in Hbit. discriminate.
  - destruct (while_ _ _ _ _) as [[? c]|]; [|discriminate]. rewrite bind_Done in E. injection E as <-. by exists c.
Qed.

(** Where the three parts of the overlap-discard algorithm meet *)
Lemma no_gap n m L P k : 2 <= m -> L <= 8 * (m - 1) -> 4 * (m - 1) <= L -> L <= n -> (2 * L <= n \/ 15 * (m - 1) < n) -> n <= P + L -> P = k * (L - (m - 1)) ->
  n - (n - n mod L) / 2 <= P + m / 2.
Proof using.
  intros Hm H8 H4 Hn H15 Hp Hk. pose proof (Nat.div_mod n L ltac:(lia)) as Hd. pose proof (Nat.mod_upper_bound n L ltac:(lia)) as Hu.
  set (q := n / L) in *. set (t := n mod L) in *. clearbody q t.
  destruct q as [|[|q]].
  - lia.
  - assert (Hk2 : 2 <= k). { destruct k as [|[|k]]; lia. }
    assert (2 * (L - (m - 1)) <= k * (L - (m - 1))) by nia. lia.
  - assert (2 * L <= n - t) by nia. lia.
Qed.

Theorem convolve_signal_cplx r addr s sched b (v o : dvec R) x h : aligned_all r addr -> reg_len r <= 64 -> cplx v x -> cplx o h -> whole_points o ->
  meta_agree v o -> vdomain v = Time -> length h <= length x -> lends b v (2 * length x) -> overlap_room b (length x) (length h) ->
  x <> [] \/ no_threads_for_nothing Large s ->
  ~ (512 < length h /\ 10 * length h < length x < 15 * length h) ->
  exists v' b', convolve_signal r addr s sched b v o = Done (v', b', Ok tt) /\
    cplx v' (centred_convolution (0, 0)%R complex_sum complex_product x h) /\ same_meta v v'.
Proof using HF.
  intros (Hr & Ha & Hh & Hp) Hr2 Hv Ho Hw Hm Hd Hl Hb Hroom Hs Hno. unfold convolve_signal.
  assert (Hmd : meta_disagree v o = false) by (destruct (meta_disagree v o) eqn:Em; [by apply meta_disagree_spec in Em | done]).
  rewrite Hmd, Hd. cbn [ddomain_eqb negb]. rewrite (points_cplx v x Hv), (points_cplx o h Ho).
  rewrite (proj2 (Nat.ltb_ge _ _) Hl). rewrite (reals_len v _ (proj2 Hv)), (reals_len o _ (proj2 Ho)), !complex_to_array_length.
  destruct ((1000 <? 2 * length x) && (2 * length h <=? 202) && (11 <? 2 * length h)) eqn:E1.
  { apply andb_prop in E1 as [[E1 E2]%andb_prop E3]. apply Nat.ltb_lt in E1. apply Nat.leb_le in E2.
    destruct (convolve_simd_cplx R_exact r addr s sched b v o x h Hr Ha Hh Hp Hv Ho Hb) as (v' & b' & -> & ? & ?); [lia | lia |]. rewrite bind_Done. by exists v', b'. }
  rewrite (proj1 Hv), andb_true_r.
  destruct ((100 * 100 <? 2 * length x) && (15 <? 2 * length h) && (10 * (2 * length h) <? 2 * length x)) eqn:E2.
  { apply andb_prop in E2 as [[E2 E3]%andb_prop E4]. apply Nat.ltb_lt in E2, E3, E4.
    assert (Hbig : 101 < length h).
    { apply andb_false_iff in E1 as [E1|E1]; [apply andb_false_iff in E1 as [E1|E1]; [apply Nat.ltb_ge in E1 | apply Nat.leb_gt in E1] | apply Nat.ltb_ge in E1]; lia. }
    destruct (next_power_of_two_spec (2 * length h)) as (w & Ew & Hw1 & Hw2); [lia|]. rewrite Ew, bind_Done.
    destruct (next_power_of_two_spec (4 * (length h - 1))) as (k & Ek & Hk1 & Hk2); [lia|].
    assert (Hno' : 2 * Nat.max w k <= length x \/ 15 * length h <= length x).
    { destruct (decide (512 < length h)) as [Hb5|Hb5]; [right; lia | left].
      assert (w <= 2 ^ 11 /\ k <= 2 ^ 11) as [Hw11 Hk11].
      { split; [apply (next_power_of_two_le (2 * length h) w 11 Ew) | apply (next_power_of_two_le _ k 11 Ek)]; change (2 ^ 11) with (20 * 100 + 48); lia. }
      change (2 ^ 11) with (20 * 100 + 48) in *. lia. }
    destruct (overlap_discard_spec HF b v o x h w (Nat.max w k) Hv Ho Hw Hm) as (v' & b' & y & P & -> & Hy & Hmeta & _ & Hly & P1 & P2 & P3 & P4 & (kk & P5) & Hin & _).
    { lia. } { apply Hw2. by rewrite even_double. } { exists k. done. } { lia. } { apply Hroom. lia. }
    exists v', b'. split; [done|]. split; [|done].
    replace (centred_convolution (0, 0)%R complex_sum complex_product x h) with y; [done|].
    apply list_eq. intros i. apply Hin.
    assert (length x - (length x - length x mod Nat.max w k) / 2 <= P + length h / 2).
    { apply no_gap with kk; try lia. }
    lia. }
  destruct (convolve_scalar_cplx s sched b v o x h Hv Ho Hl Hb Hs) as (v' & b' & -> & ? & ?). rewrite bind_Done. by exists v', b'.
Qed.

(** The parts do not meet: the points between them are those of the input. *)
Theorem convolve_signal_gap r addr s sched b (v o : dvec R) x h k : cplx v x -> cplx o h -> whole_points o ->
  meta_agree v o -> vdomain v = Time -> overlap_room b (length x) (length h) ->
  next_power_of_two (4 * (length h - 1)) = Done k -> 101 < length h -> 10 * length h < length x -> 50 * 100 < length x -> length x <= 2 * k - (length h - 1) ->
  exists v' b' y, convolve_signal r addr s sched b v o = Done (v', b', Ok tt) /\ cplx v' y /\ length y = length x /\
    forall i, k <= i < length x - k / 2 -> y !! i = x !! i.
Proof using HF.
  intros Hv Ho Hw Hm Hd Hroom Ek Hbig H10 H5000 Hgap. unfold convolve_signal.
  assert (Hmd : meta_disagree v o = false) by (destruct (meta_disagree v o) eqn:Em; [by apply meta_disagree_spec in Em | done]).
  rewrite Hmd, Hd. cbn [ddomain_eqb negb]. rewrite (points_cplx v x Hv), (points_cplx o h Ho).
  rewrite (proj2 (Nat.ltb_ge _ _)) by lia. rewrite (reals_len v _ (proj2 Hv)), (reals_len o _ (proj2 Ho)), !complex_to_array_length.
  rewrite (proj2 (Nat.leb_gt (2 * length h) 202)) by lia. rewrite andb_false_r. cbn [andb].
  rewrite (proj2 (Nat.ltb_lt (100 * 100) (2 * length x))), (proj2 (Nat.ltb_lt 15 (2 * length h))), (proj2 (Nat.ltb_lt (10 * (2 * length h)) (2 * length x))), (proj1 Hv) by lia. cbn [andb].
  destruct (next_power_of_two_spec (2 * length h)) as (w & Ew & Hw1 & Hw2); [lia|]. rewrite Ew, bind_Done.
  destruct (next_power_of_two_spec (4 * (length h - 1))) as (k' & Ek' & Hk1 & _); [lia|]. rewrite Ek in Ek'. injection Ek' as <-.
  assert (Hmax : Nat.max w k = k \/ k < w) by lia.
  destruct (overlap_discard_spec HF b v o x h w (Nat.max w k) Hv Ho Hw Hm) as (v' & b' & y & P & -> & Hy & Hmeta & _ & Hly & P1 & P2 & P3 & P4 & (kk & P5) & _ & Hout).
  { lia. } { apply Hw2. by rewrite even_double. } { exists k. done. } { lia. } { apply Hroom. lia. }
  exists v', b', y. split; [done|]. split; [done|]. split; [done|]. intros i Hi.
  assert (Nat.max w k = k) as Emax.
  { clear Hout. destruct Hmax as [|Hlt]; [done|]. exfalso.
    (* a power of two above 2 m is at most one above 4 (m - 1) *)
    assert (Hle : w <= k); [|lia]. destruct (next_power_of_two_power _ k Ek) as (c & ->); [lia|]. apply (next_power_of_two_le (2 * length h) w c Ew). lia. }
  rewrite Emax in *. apply Hout.
  assert (length x mod k = length x - k) as ->. { symmetry. apply (Nat.mod_unique _ _ 1); lia. }
  assert (P = k - (length h - 1)) as ->; [|lia].
  destruct P4 as [|P4]; [done|]. destruct kk as [|[|kk]]; [lia | lia |].
  assert (2 * (k - (length h - 1)) <= S (S kk) * (k - (length h - 1))) by nia. lia.
Qed.
End complex.
