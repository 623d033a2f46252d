From Verif Require Export Proof_Corr.
From stdpp Require Import list_numbers.
Local Open Scope R_scope.
Local Notation C := (R * R)%type.

Lemma vdata_fits {A} (v : dvec A) l : vdata v = Done l -> (len v <= alloc_len v)%nat.
Proof. intros Hv. destruct (vdata_split v l Hv) as (rest & He & Hn). unfold len, alloc_len, s_len. unfold elems in He. rewrite He, Hn, app_length. lia. Qed.

Lemma same_ratio x : x <> 0 -> Rltb (INR 11 / INR 10) (x / x) = false /\ Rltb (x / x) (INR 9 / INR 10) = false.
Proof.
  intros Hx. replace (x / x) with 1 by (field; done). replace (INR 11) with 11 by (cbn; lra). replace (INR 10) with 10 by (cbn; lra). replace (INR 9) with 9 by (cbn; lra).
  split; apply Rltb_false; lra.
Qed.

Lemma rotated_zip {P Q T} (f : P -> Q -> T) k l1 l2 l1' l2' : length l1 = length l2 -> rotated_by k l1 l1' -> rotated_by k l2 l2' -> rotated_by k (zip_with f l1 l2) (zip_with f l1' l2').
Proof.
  intros Hl [H1 R1] [H2 R2]. assert (E : length (zip_with f l1 l2) = length l1) by (rewrite zip_with_length; lia). split.
  - rewrite !zip_with_length. lia.
  - rewrite E. intros i Hi. rewrite !lookup_zip_with. rewrite R1 by done. rewrite Hl, R2 by lia. done.
Qed.

Section corr.
Context `{F : Fft R} (HF : computes_dft).
Let Hlf : forall c, length (fft_forward c) = length c. Proof. intros c. destruct HF as (-> & _). apply dft_length. Qed.
Let Hli : forall c, length (fft_inverse c) = length c. Proof. intros c. destruct HF as (_ & -> & _). apply dft_length. Qed.

Theorem spectra_product r addr s sched sched' b (v o : dvec R) x y : reg_ok r -> elem_aligned r addr -> address_ok r addr v -> whole_points v ->
  cplx v x -> cplx o y -> length x = length y -> (2 <= length x)%nat -> vdomain v = Time -> vdomain o = Time -> typed v -> typed o ->
  delta v = delta o -> delta v <> 0 -> spare b (2 * fft_inplace_scratch_len (length x)) ->
  exists v1 b1 o1 b2 v2 v3 b3, vfft b v = Done (v1, b1) /\ vfft b1 o = Done (o1, b2) /\ vmul r addr s sched v1 o1 = Done (v2, Ok tt) /\
    vifft r addr s sched' b2 v2 = Done (v3, b3) /\ cplx v3 (circular_convolution (0, 0) complex_sum complex_product 1 x y) /\ same_rest v v3.
Proof using HF.
  intros Hr Ha Hok Hw Hv Ho Hl Hl2 Hdv Hdo Htv Hto Hde Hd0 Hb.
  destruct (fft_any Hlf b v x Hv Hdv Htv Hb) as (v1 & b1 & X & E1 & HX & RotX & Hd1 & Hr1 & Hde1 & Ht1 & _ & Hs1).
  destruct (fft_any Hlf b1 o y Ho Hdo Hto) as (o1 & b2 & Y & E2 & HY & RotY & Hd2 & Hr2 & Hde2 & Ht2 & _ & Hs2). { rewrite <- Hl. by apply Hs1. }
  assert (HlX : length X = length x). { destruct RotX as [E _]. by rewrite E, Hlf. }
  assert (HlY : length Y = length x). { destruct RotY as [E _]. by rewrite E, Hlf, Hl. }
  assert (Hlen : len v1 = len v) by (by apply len_rest).
  destruct (vmul_spec r addr s sched v1 o1 Hr Ha) as (_ & _ & Hm).
  destruct (Hm) as [_ Hm'].
  { rewrite (reals_len v1 _ (proj2 HX)), (reals_len o1 _ (proj2 HY)), !complex_to_array_length. lia. }
  { split_and!; [by rewrite (proj1 HX), (proj1 HY) | by rewrite Hd1, Hd2 | |];
      cbn [nltb Rnum ndiv nofnat]; rewrite Hde1, Hde2, <- Hl, <- Hde; cbn [nmul Rnum nofnat]; apply same_ratio;
      apply Rmult_integral_contrapositive_currified; try done; apply not_0_INR; lia. }
  { unfold address_ok in *. rewrite Hlen. destruct Hok as [[K1 K2]|K]; [left | by right]. split; [done|]. intros _. apply K2, Hv. }
  { unfold whole_points in *. intros _. rewrite (alloc_rest v v1); [apply Hw, Hv | by apply (vdata_fits v _ (proj2 Hv)) | by apply (vdata_fits v1 _ (proj2 HX)) | done]. }
  destruct (Hm' X Y HX HY) as (v2 & E3 & H2 & (M1 & M2 & M3) & Hr3).
  assert (Hl2' : length (zip_with cmul X Y) = length x) by (rewrite zip_with_length; lia).
  destruct (ifft_any Hli r addr s sched' b2 v2 (zip_with cmul X Y) Hr Ha) as (v3 & b3 & Z & E4 & HZ & RotZ & Hr4 & _).
  { rewrite (len_rest v1 v2 Hr3), Hlen. unfold address_ok, simd_fits in *. destruct Hok as [[K1 K2]|K]; [by left | by right]. }
  { exact H2. } { rewrite Hl2'. lia. } { unfold vdomain in *. congruence. } { unfold typed in *. by rewrite M2, M3. } { rewrite Hl2'. by apply Hs2, Hs1. }
  exists v1, b1, o1, b2, v2, v3, b3. split_and!; try done.
  2:{ apply same_rest_trans with v2; [|done]. by apply same_rest_trans with v1. }
  rewrite Hl2' in RotZ.
  assert (EZ : Z = map (rscale (1 / INR (length x))) (zip_with cmul (fft_forward x) (fft_forward y))).
  { apply rotated_back with (length x / 2)%nat (length x - length x / 2)%nat (map (rscale (1 / INR (length x))) (zip_with cmul X Y)).
    - apply rotated_map. apply rotated_zip; [by rewrite !Hlf | done | by rewrite Hl].
    - exact RotZ.
    - intros E. apply (f_equal length) in E. rewrite map_length, zip_with_length, !Hlf in E. cbn in E. lia.
    - rewrite map_length, zip_with_length, !Hlf, <- Hl, Nat.min_id. apply Proof_FftR.halves. }
  destruct HF as (HF1 & HF2 & _). rewrite HF2, EZ, !HF1, dft_scale, idft_product in HZ by done. rewrite <- scale_nth, scale_back in HZ by lia. exact HZ.
Qed.

(** ** correlate *)
Lemma spare_no_trade (b : buffer R) n : spare b n -> spare (no_trade b) n.
Proof. by destruct b. Qed.

Lemma slice_ctor (c : list C) k : (k = KSlice \/ k = KSliceMut) -> exists w u : dvec R,
  construct ToComplexTime (Storage k (length (complex_to_array c)) (complex_to_array c)) = Done w /\ cplx w c /\ vdomain w = Time /\ typed w /\ ~ runtime w /\ alloc_len w = (2 * length c)%nat /\ elems w = complex_to_array c /\ delta w = 1 /\ len w = (2 * length c)%nat /\
  construct ToComplexFreq (Storage k (length (complex_to_array c)) (complex_to_array c)) = Done u /\ cplx u c /\ vdomain u = Frequency /\ typed u /\ ~ runtime u /\ alloc_len u = (2 * length c)%nat /\ elems u = complex_to_array c /\ delta u = 1 /\ len u = (2 * length c)%nat.
Proof.
  intros Hk. pose proof (even_double (length c)) as Hev. rewrite <- complex_to_array_length in Hev.
  assert (Hrt : forall (w : dvec R), number_space w = NComplex -> ~ runtime w) by (intros w E (? & ? & E' & _); congruence).
  assert (Hsl : forall (w : dvec R), elems w = complex_to_array c -> len w = length (complex_to_array c) -> vdata w = Done (complex_to_array c)).
  { intros w E1 E2. unfold vdata, len in *. rewrite E1, E2. rewrite slice_Done by lia. by rewrite drop_0, Nat.sub_0_r, take_ge. }
  unfold construct, s_len. cbn [s_elems s_kind]. rewrite Hev. rewrite <- complex_to_array_length.
  destruct Hk as [-> | ->]; eexists _, _; split_and!; try reflexivity; try (apply Hrt; reflexivity); try done; try (split; [done|]; apply Hsl; done).
Qed.

Theorem correlate_any r addr s sched sched' b (v o : dvec R) x Y : aligned_all r addr ->
  cplx v x -> cplx o Y -> vdomain v = Time -> vdomain o = Frequency -> (length x < length Y)%nat -> (2 <= length Y)%nat ->
  lends b v (2 * length Y) -> spare b (2 * fft_inplace_scratch_len (length Y)) ->
  exists v' b' Z, correlate r addr s sched sched' b v o = Done (v', b', Ok tt) /\ cplx v' Z /\ same_meta v v' /\
    rotated_by (length Y / 2) (map (rscale (1 / INR (length Y))) (dft 1 (zip_with cmul (dft (-1) (padded (0, 0) Surround ((length Y - length x + 1) / 2) (length Y) x)) Y))) Z.
Proof using HF.
  intros (Hr & Ha & Hh & Hp) Hv Ho Hdv Hdo Hlt Hl2 Hb Hb2. set (N := length Y) in *.
  unfold correlate. cbv zeta. rewrite Hdv, (proj1 Hv), Hdo, (proj1 Ho). cbn [ddomain_eqb negb orb].
  rewrite (points_cplx o Y Ho). fold N.
  destruct (zero_pad_b_cplx n0 b v x N Surround Hv Hlt Hb ltac:(done)) as (w & b1 & E1 & (M1 & M2 & M3) & Hw). rewrite E1, bind_Done.
  apply zero_pad_b_spare in E1. set (xp := padded _ Surround _ N x) in *.
  assert (Hlp : length xp = N). { apply pad_length. lia. }
  rewrite (proj2 Hw), bind_Done. destruct (slice_ctor xp KSliceMut) as (cx & _ & -> & Hcx & Hcd & Hct & Hcr & Hca & Hce & Hcdl & Hcl & _); [by right|]. rewrite bind_Done.
  destruct (plain_fft_any Hlf (no_trade b1) cx xp Hcx Hcd Hct) as (c1 & b2 & -> & Hc1 & Hc1d & Hc1r & Hc1dl & Hc1t & Hc1rt & Hs2).
  { apply spare_no_trade. rewrite Hlp. by apply E1. }
  rewrite bind_Done, (proj2 Ho), bind_Done. destruct (slice_ctor Y KSlice) as (_ & u & _ & _ & _ & _ & _ & _ & _ & _ & _ & -> & Hu & Hud & Hut & Hur & Hua & Hue & Hudl & Hul); [by left|]. rewrite bind_Done.
  assert (Hlc1 : len c1 = (2 * N)%nat) by (rewrite (len_rest cx c1), Hcl, Hlp; done).
  assert (Hac1 : alloc_len c1 = (2 * N)%nat).
  { rewrite (alloc_rest cx c1), Hca, Hlp; try done; [by apply (vdata_fits _ _ (proj2 Hcx)) | by apply (vdata_fits _ _ (proj2 Hc1))]. }
  set (u' := set_delta u (delta c1)). assert (Hu' : cplx u' Y) by done.
  destruct (vmul_spec r addr s sched c1 u' Hr Ha) as (_ & _ & Hm). destruct Hm as [_ Hm].
  { change (len u') with (len u). rewrite Hlc1, Hul. done. }
  { split_and!; [by rewrite (proj1 Hc1), (proj1 Hu') | by rewrite Hc1d; change (vdomain u') with (vdomain u) | |];
      cbn [nltb Rnum ndiv nofnat]; change (delta u') with (delta c1); apply same_ratio; rewrite Hc1dl, Hcdl; cbn [nmul Rnum nofnat];
      rewrite Rmult_1_r, Hlp; apply not_0_INR; lia. }
  { left. split; [done|]. by intros _. }
  { intros _. rewrite Hac1. apply even_double. }
  destruct (Hm _ _ Hc1 Hu') as (c2 & -> & Hc2 & (P1 & P2 & P3) & Hrc2). rewrite bind_Done.
  assert (HF1 : fft_forward xp = dft (-1) xp) by (by destruct HF as (-> & _)). rewrite HF1 in Hc2.
  set (prod := zip_with cmul (dft (-1) xp) Y) in *. change (zip_with cmul (dft (-1) xp) Y) with prod in Hc2.
  assert (Hlpr : length prod = N). { unfold prod. rewrite zip_with_length, dft_length, Hlp. unfold N. lia. }
  (* the borrowed data is the storage of w *)
  destruct (vdata_split w _ (proj2 Hw)) as (rest & He & Hn).
  assert (Hall : forall (q : dvec R) d, vdata q = Done d -> alloc_len q = length d -> elems q = d).
  { intros q d Hq Haq. destruct (vdata_split q _ Hq) as (rq & Hqe & _). unfold alloc_len, s_len in Haq. unfold elems in *. rewrite Hqe, app_length in Haq.
    destruct rq; [by rewrite app_nil_r in Hqe | cbn in Haq; lia]. }
  assert (Hac2 : alloc_len c2 = (2 * N)%nat).
  { rewrite (alloc_rest c1 c2), Hac1; try done; [by apply (vdata_fits _ _ (proj2 Hc1)) | by apply (vdata_fits _ _ (proj2 Hc2))]. }
  rewrite (Hall c2 _ (proj2 Hc2)) by (rewrite Hac2, complex_to_array_length; fold prod; lia).
  rewrite He. rewrite splice_Done by (rewrite app_length, !complex_to_array_length; fold prod; lia). rewrite bind_Done.
  destruct (plain_ifft_any Hli (no_trade b1) c2 prod Hc2) as (c3 & b3 & -> & Hc3 & Hrc3 & _ & _ & _ & _ & _ & _).
  { unfold vdomain in *. congruence. } { unfold typed in *. by rewrite P2, P3. } { apply spare_no_trade. rewrite Hlpr. by apply E1. }
  rewrite bind_Done.
  assert (Hac3 : alloc_len c3 = (2 * N)%nat).
  { rewrite (alloc_rest c2 c3), Hac2; try done; [by apply (vdata_fits _ _ (proj2 Hc2)) | by apply (vdata_fits _ _ (proj2 Hc3))]. }
  rewrite (Hall c3 _ (proj2 Hc3)) by (rewrite Hac3, complex_to_array_length, Hli; lia).
  rewrite splice_Done by (rewrite app_length, !complex_to_array_length, Hli; lia). rewrite bind_Done. cbn [take app].
  rewrite drop_app_alt by (rewrite !complex_to_array_length, Hli; lia).
  match goal with |- context [scale_real _ _ _ _ _ ?aa] => set (w2 := aa) end.
  assert (Hw2 : cplx w2 (fft_inverse prod)).
  { split; [exact (proj1 Hw)|]. apply vdata_intro with rest; [done|]. rewrite complex_to_array_length, Hli. rewrite Hlpr. change (valid_len w2) with (valid_len w). rewrite Hn, complex_to_array_length. lia. }
  rewrite (points_cplx w xp Hw), Hlp.
  destruct (proj2 (scale_real_spec r addr s sched' (n1 / nofnat N)%num w2 Hr Ha ltac:(by left)) _ Hw2) as (w3 & -> & Hw3 & (Q1 & Q2 & Q3) & _). rewrite bind_Done.
  destruct (swap_halves_cplx w3 _ Hw3) as (w4 & Z & -> & _ & HZ & Hrot & (S1 & S2 & S3) & _). rewrite bind_Done.
  exists w4, b1, Z. split_and!; try done.
  - split_and!; unfold w2 in *; cbn in *; congruence.
  - rewrite map_length, Hli, Hlpr in Hrot. destruct HF as (_ & HF2 & _). rewrite HF2 in Hrot. exact Hrot.
Qed.

Lemma R_conj_laws : (forall x : R, (x * n1 = x)%num) /\ (forall x : R, (x * nopp n1 = nopp x)%num).
Proof. split; intros x; cbn; ring. Qed.

Theorem prepare_argument_any r addr s sched b (o : dvec R) y : aligned_all r addr -> cplx o y -> vdomain o = Time -> typed o ->
  spare b (2 * fft_inplace_scratch_len (length y)) ->
  exists o' b', prepare_argument r addr s sched b o = Done (o', b') /\ cplx o' (map conjugated (dft (-1) y)) /\ vdomain o' = Frequency /\ typed o' /\ still_spare b b'.
Proof using HF.
  intros (Hr & Ha & Hh & Hp) Ho Hd Ht Hb. unfold prepare_argument.
  destruct (plain_fft_any Hlf b o y Ho Hd Ht Hb) as (o1 & b1 & -> & Ho1 & Hd1 & _ & _ & Ht1 & _ & Hs). rewrite bind_Done.
  destruct R_conj_laws as [L1 L2].
  destruct (conj_spec r addr s sched o1 _ L1 L2 Hr Ha Ho1) as (o2 & -> & Ho2 & (M1 & M2 & M3) & _). { left. split; [done|]. by intros _. }
  rewrite bind_Done. exists o2, b1. destruct HF as (HF1 & _). rewrite HF1 in Ho2. split_and!; try done.
  - erewrite map_ext; [exact Ho2|]. by intros [a b'].
  - unfold vdomain in *. congruence.
  - unfold typed in *. by rewrite M2, M3.
Qed.

Theorem prepare_argument_padded_any r addr s sched b (o : dvec R) y : aligned_all r addr -> cplx o y -> (2 <= length y)%nat -> vdomain o = Time -> typed o ->
  lends b o (2 * (2 * length y - 1)) -> spare b (2 * fft_inplace_scratch_len (2 * length y - 1)) ->
  exists o' b', prepare_argument_padded r addr s sched b o = Done (o', b') /\
    cplx o' (map conjugated (dft (-1) (padded (0, 0) Surround ((2 * length y - 1 - length y + 1) / 2) (2 * length y - 1) y))) /\ vdomain o' = Frequency /\ typed o' /\ still_spare b b'.
Proof using HF.
  intros Hal Ho Hl Hd Ht Hb Hb2. unfold prepare_argument_padded. rewrite (points_cplx o y Ho), usub_Done, bind_Done by lia.
  destruct (zero_pad_b_cplx n0 b o y (2 * length y - 1) Surround Ho ltac:(lia) Hb ltac:(done)) as (o1 & b1 & E1 & (M1 & M2 & M3) & Ho1). rewrite E1, bind_Done.
  apply zero_pad_b_spare in E1. cbn [n0 Rnum] in Ho1.
  destruct (prepare_argument_any r addr s sched b1 o1 _ Hal Ho1) as (o2 & b2 & E2 & K1 & K2 & K3 & K4).
  { unfold vdomain in *. congruence. } { unfold typed in *. by rewrite M2, M3. } { rewrite pad_length by lia. by apply E1. }
  exists o2, b2. split_and!; try done. by eapply still_spare_trans.
Qed.

Lemma still_spare_lends {A} (b b' : buffer A) (v : dvec A) n : still_spare b b' -> lends b v n -> lends b' v n.
Proof using.
  clear. intros Hs Hb. destruct b' as [st'| |st']; try done. destruct b as [st| |st].
  - pose proof (Hs (1 + length st')%nat I) as K. cbn in K. lia.
  - pose proof (Hs (1 + length st')%nat I) as K. cbn in K. lia.
  - destruct Hb as [H1 H2]. split; [|done]. exact (Hs n H1).
Qed.
Theorem correlate_padded r addr addr' s sched1 sched2 sched3 b (v o : dvec R) x y : aligned_all r addr -> aligned_all r addr' ->
  cplx v x -> cplx o y -> length x = length y -> (2 <= length x)%nat -> vdomain v = Time -> vdomain o = Time -> typed o ->
  lends b o (2 * (2 * length y - 1)) -> lends b v (2 * (2 * length y - 1)) -> spare b (2 * fft_inplace_scratch_len (2 * length y - 1)) ->
  exists o' b1 v' b2, prepare_argument_padded r addr' s sched1 b o = Done (o', b1) /\
    correlate r addr s sched2 sched3 b1 v o' = Done (v', b2, Ok tt) /\ cplx v' (cross_correlation x y) /\ same_meta v v'.
Proof using HF.
  intros Hal Hal' Hv Ho Hl Hl2 Hdv Hdo Hto Hb Hbv Hb2.
  destruct (prepare_argument_padded_any r addr' s sched1 b o y Hal' Ho ltac:(lia) Hdo Hto Hb Hb2) as (o' & b1 & E1 & Ho' & Hd' & _ & Hs). exists o', b1.
  pose proof (still_spare_lends b b1 v _ Hs Hbv) as Hb1.
  set (Y := map conjugated _) in *. assert (HlY : length Y = (2 * length y - 1)%nat). { unfold Y. rewrite map_length, dft_length. apply pad_length. lia. }
  destruct (correlate_any r addr s sched2 sched3 b1 v o' x Y Hal Hv Ho' Hdv Hd') as (v' & b2 & Z & E2 & HZ & M & Rot); rewrite ?HlY in *; try lia; try done.
  { by apply Hs. }
  exists v', b2. split_and!; try done. unfold Y in Rot.
  rewrite idft_conj_product in Rot. 2:{ rewrite !pad_length by lia. done. }
  rewrite pad_length in Rot by lia. rewrite <- scale_nth, scale_back in Rot by lia.
  rewrite <- Hl in Rot. rewrite <- (padded_correlation x y (length x) Z); try done; try lia. by rewrite <- Hl.
Qed.
End corr.

(** *** What goes wrong *)
Section wrong.
Context {A : Type} `{Num A} `{Flt A} `{Rem A} `{Trig A} `{F : Fft A}.
Local Open Scope nat_scope.

(** The argument must have more points than the vector. *)
Theorem correlate_same_length r addr s sched sched' b (v o : dvec A) x Y : cplx v x -> cplx o Y -> length Y <= length x -> vdomain v = Time -> vdomain o = Frequency ->
  correlate r addr s sched sched' b v o = Done (v, b, Err InvalidArgumentLength).
Proof.
  intros Hv Ho Hl Hdv Hdo. unfold correlate. cbv zeta. rewrite Hdv, (proj1 Hv), Hdo, (proj1 Ho). cbn [ddomain_eqb negb orb].
  unfold zero_pad_b. cbv zeta. rewrite (points_cplx o Y Ho), (proj1 Hv), (reals_len v _ (proj2 Hv)), complex_to_array_length.
  destruct (_ <=? _) eqn:E; [by rewrite bind_Done | lia].
Qed.
Theorem prepare_padded_single r addr s sched b (o : dvec A) y : cplx o y -> length y <= 1 -> prepare_argument_padded r addr s sched b o = Panicked.
Proof.
  intros Ho Hl. unfold prepare_argument_padded. rewrite (points_cplx o y Ho). destruct (usub _ _) as [n|] eqn:E; [|done]. rewrite bind_Done.
  unfold usub in E. destruct (1 <=? _) eqn:E'; [|done]. injection E as <-.
  unfold zero_pad_b. cbv zeta. rewrite (proj1 Ho), (reals_len o _ (proj2 Ho)), complex_to_array_length.
  match goal with |- context [(?aa <=? ?bb)] => replace (aa <=? bb) with true by (symmetry; apply Nat.leb_le; lia) end. done.
Qed.
Theorem correlate_wrong r addr s sched sched' b (v o : dvec A) : (vdomain v <> Time \/ is_complex v = false \/ vdomain o <> Frequency \/ is_complex o = false) ->
  exists v', correlate r addr s sched sched' b v o = Done (v', b, Err InputMustBeInTimeDomain) /\ poisoned v'.
Proof.
  intros Hw. eexists. split.
  - unfold correlate. cbv zeta. destruct (negb (ddomain_eqb (vdomain v) Time) || negb (is_complex v)) eqn:E1; [reflexivity|].
    destruct (negb (ddomain_eqb (vdomain o) Frequency) || negb (is_complex o)) eqn:E2; [reflexivity|]. exfalso.
    destruct (vdomain v), (is_complex v), (vdomain o), (is_complex o); cbn in E1, E2; try done; destruct Hw as [?|[?|[?|?]]]; done.
  - destruct v as [st dl dm ns vl]; destruct dm, ns; done.
Qed.
End wrong.
