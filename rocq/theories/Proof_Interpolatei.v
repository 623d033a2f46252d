(** Interpolation by an integer factor, in frequency domain. *)
From Verif Require Import Proof_Base Proof_Vec Proof_Pad Proof_PadB Proof_Split Proof_Frame Proof_Fft Proof_FftR Proof_Window Proof_Response Proof_ComplexMath Proof_ComplexSet Proof_Complex Proof_Sfft Proof_Corr Proof_CorrV Proof_Trig Proof_Interpolate.
From Verif Require Import Spec_Interpolate.
From stdpp Require Import list_numbers.
Local Open Scope R_scope.
Local Notation C := (R * R)%type.
Local Notation sel l k := (default ((0, 0) : C) (l !! k)).

Lemma csm_interleaved (c : list C) K (phi : nat -> C) : (0 < K)%nat ->
  csm (length c * K) (fun q => cmul (sel (interleaved (0, 0) K c) q) (phi q)) = csm (length c) (fun j => cmul (sel c j) (phi (j * K)%nat)).
Proof.
  intros HK. induction c as [|x c IH] using rev_ind; [done|]. rewrite app_length. cbn [length]. rewrite Nat.add_1_r, csm_S. rewrite Nat.mul_succ_l, csm_split.
  assert (Hi : interleaved (0, 0) K (c ++ [x]) = interleaved (0, 0) K c ++ x :: zeros (0, 0) (K - 1)). { unfold interleaved. rewrite bind_app. cbn. by rewrite app_nil_r. }
  assert (Hl : length (interleaved ((0, 0) : C) K c) = (length c * K)%nat) by (by apply interleaved_length).
  f_equal.
  - transitivity (csm (length c * K) (fun q => cmul (sel (interleaved (0, 0) K c) q) (phi q))).
    { apply csm_ext. intros q Hq. by rewrite Hi, lookup_app_l by lia. }
    rewrite IH. apply csm_ext. intros j Hj. by rewrite lookup_app_l by lia.
  - rewrite (csm_single K 0); [|done|].
    + rewrite Hi, lookup_app_r by lia. rewrite Hl, Nat.add_0_r, Nat.sub_diag. rewrite lookup_app_r by lia. by rewrite Nat.sub_diag.
    + intros i Hi' Hi0. rewrite Hi, lookup_app_r by lia. rewrite Hl. replace (length c * K + i - length c * K)%nat with i by lia. destruct i as [|i]; [done|].
      change ((x :: ?aa) !! S i) with (aa !! i). unfold zeros. rewrite lookup_replicate_2 by lia. change (default ?aa (Some ?bb)) with bb. ring.
Qed.

Lemma dft_interleaved (c : list C) K p : c <> [] -> (0 < K)%nat -> (p < length c * K)%nat ->
  sel (dft (-1) (interleaved (0, 0) K c)) p = sel (dft (-1) c) (p mod length c).
Proof.
  intros Hc HK Hp. set (n := length c) in *. assert (Hn : (0 < n)%nat) by (unfold n; destruct c; [done | cbn; lia]).
  assert (Hl : length (interleaved ((0, 0) : C) K c) = (n * K)%nat) by (by apply interleaved_length).
  assert (Hpm : (p mod n < n)%nat) by (apply Nat.mod_upper_bound; lia).
  rewrite !dft_lookup by (fold n; lia). cbn [default]. rewrite Hl. unfold n. rewrite csm_interleaved by done. fold n.
  apply csm_ext. intros j Hj. f_equal.
  rewrite (Nat.div_mod p n) at 1 by lia. set (u := (p / n)%nat). set (w := (p mod n)%nat) in *. pose proof (Proof_Dft.INR_pos n Hn). pose proof (Proof_Dft.INR_pos K HK).
  transitivity (turn n (-1 * (Z.of_nat j * Z.of_nat (n * u + w)))).
  - unfold turn. rewrite mult_INR. rewrite !mult_IZR, <- !INR_IZR_INZ, mult_INR. f_equal; f_equal; field; lra.
  - rewrite <- (turn_period n (-1 * (Z.of_nat j * Z.of_nat w)) (- Z.of_nat u * Z.of_nat j) Hn). f_equal. lia.
Qed.

(** The spectrum with its images, multiplied by a gain *)
Theorem imaged (c : list C) K (g : Z -> R) (G : nat -> R) Q : c <> [] -> (0 < K)%nat -> length Q = (length c * K)%nat ->
  (forall p, (p < length c * K)%nat -> sel Q p = cmul (sel (dft (-1) (interleaved (0, 0) K c)) p) (cmul (INR K, 0) (G p, 0))) ->
  (forall p, (p < length c * K)%nat -> G p = g (frequency (length c * K) p)) ->
  map (rscale (1 / INR (length c * K))) (dft 1 Q) = samples_with_images c g K.
Proof.
  intros Hc HK HQ EQ EG. set (n := length c) in *. set (m := (n * K)%nat) in *. assert (Hn : (0 < n)%nat) by (unfold n; destruct c; [done | cbn; lia]).
  assert (Hm : (0 < m)%nat) by (unfold m; nia). pose proof (Proof_Dft.INR_pos n Hn). pose proof (Proof_Dft.INR_pos K HK). pose proof (Proof_Dft.INR_pos m Hm).
  assert (Em : INR m = INR n * INR K) by (unfold m; apply mult_INR).
  apply list_eq. intros i. destruct (decide (i < m)%nat) as [Hi|Hi].
  2: { rewrite !lookup_ge_None_2; [done | unfold samples_with_images; rewrite map_length, seq_length; fold n m; lia | rewrite map_length, dft_length; lia]. }
  unfold samples_with_images. change (map ?ff ?l) with (ff <$> l). rewrite !list_lookup_fmap, dft_lookup by lia. fold n m. rewrite lookup_seq_lt by done.
  cbn [fmap option_fmap option_map]. f_equal. rewrite HQ. rewrite rscale_cmul. unfold with_images. fold n. cbv zeta. change (series (0, 0) complex_sum) with csm.
  change complex_product with (@cmul R _).
  transitivity (cmul (1 / INR m, 0) (cmul (INR K, 0) (csm m (fun p => cmul (sel (dft (-1) c) (p mod n)) (cmul (g (frequency m p), 0) (circle (2 * PI * IZR (frequency m p) * (INR i / INR K) / INR n))))))).
  - f_equal. rewrite <- csm_mul_l. apply csm_ext. intros p Hp. rewrite EQ, EG by done. unfold n at 2. rewrite dft_interleaved by (try done). fold n.
    assert (Ht : turn m (1 * (Z.of_nat p * Z.of_nat i)) = circle (2 * PI * IZR (frequency m p) * (INR i / INR K) / INR n)).
    { transitivity (turn m (frequency m p * Z.of_nat i)).
      - rewrite <- (moved_turn m m p (Z.of_nat i)) by lia. f_equal. f_equal. f_equal. unfold moved. destruct (p <? m - m / 2)%nat; lia.
      - rewrite turn_circle. f_equal. rewrite mult_IZR, <- INR_IZR_INZ, Em. field. lra. }
    rewrite Ht. ring.
  - transitivity (cmul (cmul (1 / INR m, 0) (INR K, 0)) (csm m (fun p => cmul (sel (dft (-1) c) (p mod n)) (cmul (g (frequency m p), 0) (circle (2 * PI * IZR (frequency m p) * (INR i / INR K) / INR n)))))); [ring|].
    f_equal. unfold cmul. cbn. rewrite Em. f_equal; field; lra.
Qed.

Lemma borrowed_all (v : dvec R) (c : list C) : vdata v = Done (complex_to_array c) ->
  exists w, borrowed v (2 * length c) = Done w /\ holds (2 * length c) Time w c.
Proof.
  intros Hv. unfold borrowed. pose proof (complex_to_array_length c) as Hl. rewrite Hv, bind_Done, slice_Done, bind_Done by lia. rewrite drop_0, Nat.sub_0_r, take_ge by lia.
  unfold construct, s_len. cbn [s_elems s_kind]. rewrite Hl, even_double. cbv zeta. eexists. split; [reflexivity|]. split_and!; try done.
  - split; [done|]. apply (vdata_intro _ _ []); [by rewrite app_nil_r | by rewrite Hl].
  - intros (? & ? & E & _). done.
Qed.
Lemma interleaved_pairs_2 K (l : list R) : (0 < K)%nat -> interleaved 0 (K * 2) l = complex_to_array (interleaved (0, 0) K (map of_real l)).
Proof.
  intros HK. induction l as [|x l IH]; [done|]. rewrite interleaved_cons, IH. cbn [map]. rewrite interleaved_cons.
  change (of_real x :: zeros (0, 0) (K - 1) ++ interleaved (0, 0) K (map of_real l)) with ([(x, 0)] ++ zeros (0, 0) (K - 1) ++ interleaved (0, 0) K (map of_real l)).
  rewrite !complex_to_array_app.
  assert (Hz : zeros 0 (K * 2 - 1) = 0 :: complex_to_array (zeros (0, 0) (K - 1))).
  { replace (K * 2 - 1)%nat with (S (2 * (K - 1))) by lia. unfold zeros. cbn [replicate]. f_equal. clear. induction (K - 1)%nat as [|k IHk]; [done|].
    replace (2 * S k)%nat with (S (S (2 * k))) by lia. cbn [replicate]. rewrite IHk. done. }
  rewrite Hz. done.
Qed.

Section interpolatei.
Context `{F : Fft R} (HF : computes_dft).

(** What is left to do once the zeros are inserted *)
Definition interpolatei_from (r : reg_type) (addr : nat) (s sc : settings) (sch : schedules) (b : buffer R) (v : dvec R) (h : response R R) (factor : nat)
    (orig_is_complex : bool) : run (dvec R * buffer R * result unit) :=
    let l := len v in
    complex ← borrowed v l;
    '(complex, _) ← plain_fft (no_trade b) complex;
    let factorf := nofnat factor in
    complex ← on_points (multiply_function_points cmul (r_symmetric h) true factorf (factorf, n0) (fun x => (r_calc h x, n0)) sc (sch_mul sch)) complex;
    '(complex, _) ← plain_ifft (no_trade b) complex;
    e ← splice (elems v) 0 (elems complex);
    v ← scale_real r addr s (sch_scale sch) (n1 / nofnat (l / 2))%num (set_elems v e);
    if negb orig_is_complex then v ← pure_complex_to_real_operation_inplace fst v; Done (v, b, Ok tt) else Done (v, b, Ok tt).
Lemma interpolatei_from_spec r addr s sc sch b v h factor : interpolatei r addr s sc sch b v h factor =
  if (factor <=? 1)%nat then Done (v, b, Ok tt)
  else if negb (r_symmetric h) && negb (is_complex v) then Done (v, b, Err ArgumentFunctionMustBeSymmetric)
  else '(v1, b1) ← (if negb (is_complex v) then zero_interleave_b n0 b v (factor * 2) else zero_interleave_b n0 b v factor);
    interpolatei_from r addr s sc sch b1 v1 h factor (is_complex v).
Proof using. reflexivity. Qed.

Theorem interpolatei_core r addr s sc sch b (v : dvec R) h c K oc : (1 < K)%nat -> c <> [] ->
  vdata v = Done (complex_to_array (interleaved (0, 0) K c)) -> aligned_all r addr -> spare b (2 * fft_inplace_scratch_len (length c * K)) ->
  foldable h sc (length c * K) ->
  exists v', interpolatei_from r addr s sc sch b v h K oc = Done (v', b, Ok tt) /\
    let p := samples_with_images c (placed_gain h (length c) (length c * K)) K in
    vdata v' = Done (if oc then complex_to_array p else map fst p) /\ same_meta v v'.
Proof using HF.
  intros HK Hc Hv Hal Hs Hh. set (n := length c) in *. assert (Hn : (0 < n)%nat) by (unfold n; destruct c; [done | cbn; lia]). set (m := (n * K)%nat) in *.
  assert (Hm : (1 < m)%nat) by (unfold m; nia). pose proof (Proof_Dft.INR_pos n Hn). pose proof (Proof_Dft.INR_pos K ltac:(lia)) as HKp.
  set (Z := interleaved (0, 0) K c) in *. assert (HZ : length Z = m) by (apply interleaved_length; lia).
  unfold interpolatei_from. cbv zeta. rewrite (reals_len _ _ Hv), complex_to_array_length.
  destruct (borrowed_all v Z Hv) as (w & -> & Hw). rewrite bind_Done.
  destruct (fft_holds HF (2 * length Z) (no_trade b) w Z Hw) as (w1 & bb & -> & Hw1 & _); [apply spare_no_trade; by rewrite HZ|]. rewrite bind_Done.
  set (X := dft (-1) Z) in *. assert (HX : length X = m) by (unfold X; by rewrite dft_length).
  destruct (response_bins h n m sc (sch_mul sch) X Hm HX Hh) as (G & E & G1 & G2).
  assert (EK : INR m / INR n = INR K) by (unfold m; rewrite mult_INR; field; lra). rewrite EK in E. change n0 with 0. change (nofnat K) with (INR K).
  set (f := multiply_function_points cmul (r_symmetric h) true (INR K) (INR K, 0) (fun x => (r_calc h x, 0)) sc (sch_mul sch)) in *.
  assert (E' : f (length X) X = Done (imap (fun p x => cmul x (cmul (INR K, 0) (G p, 0))) X)) by (rewrite HX; exact E).
  destruct (on_points_spec f w1 X _ (proj1 Hw1) E' (imap_length _ _)) as (w2 & -> & K1 & K2 & K3). rewrite bind_Done.
  set (Q := imap (fun p x => cmul x (cmul (INR K, 0) (G p, 0))) X) in *. assert (HQ : length Q = m) by (unfold Q; by rewrite imap_length).
  assert (Hw2 : holds (2 * length Z) Frequency w2 Q) by (by apply (holds_same _ _ w1 X)).
  destruct (ifft_holds HF (2 * length Z) (no_trade b) w2 Q Hw2) as (w3 & bb2 & -> & Hw3 & _); [apply spare_no_trade; by rewrite HQ|]. rewrite bind_Done.
  assert (ES : map (rscale (1 / INR m)) (dft 1 Q) = samples_with_images c (placed_gain h n m) K).
  { apply (imaged c K _ G); fold n m; [done | lia | done | | ].
    - intros p Hp. fold Z X. unfold Q. rewrite list_lookup_imap. destruct (lookup_lt_is_Some_2 X p) as [x ->]; [lia|]. done.
    - intros p Hp. unfold frequency. pose proof (Nat.div_mod m 2 ltac:(lia)). pose proof (Nat.mod_upper_bound m 2 ltac:(lia)).
      destruct (Nat.ltb_spec p (m - m / 2)); [apply G1; lia | apply G2; lia]. }
  destruct (vdata_split v _ Hv) as (r1 & He1 & Hn1). destruct Hw3 as (Hc4 & _ & _ & _ & Ha4 & _). unfold alloc_len, s_len in Ha4. change (s_elems (Model_Vec.data w3)) with (elems w3) in Ha4.
  destruct (vdata_split w3 _ (proj2 Hc4)) as (r4 & He4 & _). assert (Hdl : length (dft 1 Q) = m) by (by rewrite dft_length).
  assert (r4 = []) as ->. { rewrite He4, app_length, complex_to_array_length, Hdl, HZ in Ha4. destruct r4; [done | cbn in Ha4; lia]. }
  rewrite app_nil_r in He4. rewrite splice_Done by (rewrite He1, app_length, complex_to_array_length; lia). rewrite bind_Done. rewrite take_0. cbn [app].
  set (v2 := set_elems v _). rewrite Proof_SimdOps.div2_double, HZ.
  assert (Hv2 : vdata v2 = Done (complex_to_array (dft 1 Q))).
  { apply (vdata_intro v2 _ (drop (0 + length (elems w3)) (elems v))); [change (elems v2) with (elems w3 ++ drop (0 + length (elems w3)) (elems v)); by rewrite He4 at 1|].
    change (valid_len v2) with (valid_len v). by rewrite Hn1, !complex_to_array_length, Hdl, HZ. }
  destruct (scale_vdata r addr s (sch_scale sch) (n1 / nofnat m)%num v2 _ Hal Hv2) as (v3 & -> & Hv3 & (N1 & N2 & N3)). rewrite bind_Done.
  change (n1 / nofnat m)%num with (1 / INR m) in Hv3. rewrite ES in Hv3. destruct oc; cbn [negb].
  - exists v3. split; [done|]. split; [exact Hv3|]. done.
  - destruct (to_real_inplace v3 fst _ Hv3) as (v5 & -> & Hv5 & (L1 & L2 & L3)). rewrite bind_Done. exists v5. split; [done|]. split; [done|]. change (number_space v2) with (number_space v) in *. change (domain v2) with (domain v) in *. change (delta v2) with (delta v) in *. split_and!; congruence.
Qed.

Theorem interpolatei_cplx r addr s sc sch b (v : dvec R) h c K : (1 < K)%nat -> cplx v c -> c <> [] -> aligned_all r addr ->
  lends b v (2 * (length c * K)) -> spare b (2 * fft_inplace_scratch_len (length c * K)) -> foldable h sc (length c * K) ->
  exists v' b', interpolatei r addr s sc sch b v h K = Done (v', b', Ok tt) /\
    cplx v' (samples_with_images c (placed_gain h (length c) (length c * K)) K) /\ same_meta v v'.
Proof using HF.
  intros HK Hv Hc Hal Hb Hs Hh. rewrite interpolatei_from_spec. rewrite (proj2 (Nat.leb_gt K 1)) by lia. rewrite (proj1 Hv). cbn [negb]. rewrite andb_false_r.
  destruct (zero_interleave_b_cplx n0 b v c K) as (v1 & b1 & E1 & (R1 & R2 & R3) & Hv1); try done.
  rewrite E1, bind_Done. apply zero_interleave_b_spare in E1 as Hsp.
  destruct (interpolatei_core r addr s sc sch b1 v1 h c K true) as (v' & E & K1 & (N1 & N2 & N3)); try done. { exact (proj2 Hv1). } { by apply Hsp. }
  exists v', b1. split; [exact E|]. split; [|unfold same_meta; rewrite N1, N2, N3; done]. split; [|done]. unfold is_complex. rewrite N3, R3. exact (proj1 Hv).
Qed.
Theorem interpolatei_reals r addr s sc sch b (v : dvec R) h l K : (1 < K)%nat -> reals v l -> l <> [] -> aligned_all r addr ->
  lends b v (2 * (length l * K)) -> spare b (2 * fft_inplace_scratch_len (length l * K)) -> r_symmetric h = true -> foldable h sc (length l * K) ->
  exists v' b', interpolatei r addr s sc sch b v h K = Done (v', b', Ok tt) /\
    reals v' (map fst (samples_with_images (map of_real l) (placed_gain h (length l) (length l * K)) K)) /\ same_meta v v'.
Proof using HF.
  intros HK Hv Hc Hal Hb Hs Hy Hh. rewrite interpolatei_from_spec. rewrite (proj2 (Nat.leb_gt K 1)) by lia. rewrite (proj1 Hv), Hy. cbn [negb andb].
  destruct (zero_interleave_b_real n0 b v l (K * 2)) as (v1 & b1 & E1 & (R1 & R2 & R3) & Hv1); try done; [lia | by replace (length l * (K * 2))%nat with (2 * (length l * K))%nat by lia|].
  rewrite E1, bind_Done. apply zero_interleave_b_spare in E1 as Hsp. change n0 with 0 in Hv1. rewrite interleaved_pairs_2 in Hv1 by lia.
  assert (Hml : length (map of_real l) = length l) by apply map_length.
  destruct (interpolatei_core r addr s sc sch b1 v1 h (map of_real l) K false) as (v' & E & K1 & (N1 & N2 & N3)); rewrite ?Hml; try done.
  { by destruct l. } { exact (proj2 Hv1). } { by apply Hsp. }
  rewrite Hml in K1. exists v', b1. split; [exact E|]. split; [|unfold same_meta; rewrite N1, N2, N3; done]. split; [|done]. unfold is_complex. rewrite N3, R3. exact (proj1 Hv).
Qed.
End interpolatei.

(** Without images this is the trigonometric polynomial. *)
Theorem no_images (c : list C) g K t : c <> [] -> (0 < K)%nat -> (forall f, in_band (length c) f = false -> g f = 0) ->
  with_images c g (length c * K) t = polynomial c g t.
Proof.
  intros Hc HK Hg. set (n := length c) in *. assert (Hn : (0 < n)%nat) by (unfold n; destruct c; [done | cbn; lia]). set (m := (n * K)%nat) in *.
  assert (Hnm : (n <= m)%nat) by (unfold m; nia). unfold with_images, polynomial. fold n. cbv zeta. f_equal. change (series (0, 0) complex_sum) with csm. change complex_product with (@cmul R _).
  set (X := dft (-1) c). assert (HX : length X = n) by apply dft_length.
  transitivity (csm m (fun p => cmul (sel (padded (0, 0) Center 0 m X) p) (cmul (g (frequency m p), 0) (circle (2 * PI * IZR (frequency m p) * t / INR n))))).
  - destruct (halves_mono n m Hnm) as [Ha Hb]. pose proof (halves_le n). pose proof (halves_le m).
    apply csm_ext. intros p Hp. destruct (in_band n (frequency m p)) eqn:Eb.
    + f_equal. f_equal. unfold padded. rewrite HX. unfold in_band, frequency in Eb. apply andb_prop in Eb as [E1 E2]. apply Z.leb_le in E1. apply Z.ltb_lt in E2.
      assert (Ea : length (take (n - n / 2) X) = (n - n / 2)%nat) by (rewrite take_length; lia).
      destruct (Nat.ltb_spec p (m - m / 2)).
      * rewrite lookup_app_l by lia. rewrite lookup_take by lia. by rewrite Nat.mod_small by lia.
      * rewrite lookup_app_r by lia. rewrite lookup_app_r by (unfold zeros; rewrite replicate_length; lia). unfold zeros. rewrite replicate_length, lookup_drop, Ea.
        f_equal. replace (p mod n)%nat with (p - (m - n))%nat; [lia|]. apply (Nat.mod_unique _ _ (K - 1)); [lia|]. unfold m. nia.
    + rewrite (Hg _ Eb). assert (Hz : forall a b : C, cmul a (cmul (0, 0) b) = (0, 0)) by (intros [? ?] [? ?]; unfold cmul; cbn; f_equal; ring). by rewrite !Hz.
  - rewrite csm_padded by lia. rewrite HX. apply csm_ext. intros k Hk. f_equal.
    assert (Ef : frequency m (moved n m k) = frequency n k). { destruct (halves_mono n m Hnm) as [Ha Hb]. pose proof (halves_le n). pose proof (halves_le m).
      unfold frequency, moved. destruct (Nat.ltb_spec k (n - n / 2)).
      - by rewrite (proj2 (Nat.ltb_lt k (m - m / 2))) by lia.
      - rewrite (proj2 (Nat.ltb_ge (k + m - n) (m - m / 2))) by lia. lia. }
    by rewrite Ef.
Qed.
