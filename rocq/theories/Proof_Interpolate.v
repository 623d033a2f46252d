(** Interpolation in frequency domain. *)
From Verif Require Import Proof_Base Proof_Vec Proof_Pad Proof_PadB Proof_Frame Proof_Fft Proof_FftR Proof_Window Proof_Response Proof_ComplexMath Proof_ComplexSet Proof_Complex Proof_Sfft Proof_Corr Proof_CorrV Proof_Trig.
From Verif Require Import Spec_Interpolate.
Local Open Scope nat_scope.

Section any.
Context {A : Type} `{Num A}.

Lemma resize_b_prefix b (v : dvec A) d n : vdata v = Done d -> (is_complex v = true -> Nat.odd n = false) -> lends b v n -> length d <= n ->
  exists v' b' rest, resize_b n0 b v n = Done (v', b', Ok tt) /\ vdata v' = Done (d ++ rest) /\ length (d ++ rest) = n /\ same_meta v v' /\ still_spare b b'.
Proof.
  intros Hv Ho Hb Hd. unfold resize_b. replace (is_complex v && Nat.odd n) with false by (destruct (is_complex v); [by rewrite Ho | done]).
  destruct (vdata_split v d Hv) as (r & He & Hn).
  destruct (resize_cases n0 v n) as [[er ->]|(v' & t & -> & Hl & Hm & Ha & _ & He' & _)].
  - destruct (borrow_lends n0 b v n Hb) as (temp & -> & Ht). rewrite bind_Done, Hv, bind_Done. unfold len. rewrite Hn.
    rewrite copy_into_Done by lia. rewrite bind_Done. rewrite take_0. cbn [app].
    set (target := d ++ drop (length d) temp). assert (Hlt : length target = n) by (unfold target; rewrite app_length, drop_length; lia).
    destruct (trade_vdata b v target n Hb Hlt) as (v' & b' & E & Hv' & Hm). destruct (trade b target (Model_Vec.data v)) as [st b''] eqn:Et.
    injection E as Ev Eb. rewrite Ev, Eb. exists v', b', (drop (length d) temp). split_and!; try done. subst b''. by eapply trade_spare.
  - exists v', b. rewrite He in He'. rewrite <- app_assoc in He'. exists (take (n - length d) (r ++ replicate t n0)).
    assert (Hal : length (d ++ r ++ replicate t n0) >= n). { rewrite <- He'. exact Ha. }
    assert (Hlr : length (take (n - length d) (r ++ replicate t n0)) = n - length d). { rewrite take_length. rewrite app_length in Hal. lia. }
    split_and!; try done.
    + apply (vdata_intro _ _ (drop (n - length d) (r ++ replicate t n0))).
      * rewrite He', <- app_assoc. f_equal. by rewrite take_drop.
      * unfold len in Hl. rewrite Hl, app_length. lia.
    + rewrite app_length. lia.
    + exact (fun _ h => h).
Qed.

(** The vector which borrows the data of another one: it holds [L] elements, the first ones of them are the points [X]. *)
Definition holds (L : nat) (d : ddomain) (w : dvec A) (X : list (A * A)) : Prop :=
  cplx w X /\ vdomain w = d /\ typed w /\ ~ runtime w /\ alloc_len w = L /\ s_kind (Model_Vec.data w) = KSliceMut.

Lemma holds_same L d w X w' X' : holds L d w X -> cplx w' X' -> same_meta w w' -> same_rest w w' -> holds L d w' X'.
Proof.
  intros (H1 & H2 & H3 & H4 & H5 & H6) Hc (M1 & M2 & M3) Hr. unfold holds, vdomain, typed, runtime. rewrite M2, M3. split_and!; try done.
  - rewrite (alloc_rest w w'); try done; [by apply (vdata_fits _ _ (proj2 H1)) | by apply (vdata_fits _ _ (proj2 Hc))].
  - by rewrite (proj1 Hr).
Qed.
Lemma holds_len L d w X : holds L d w X -> len w = 2 * length X /\ 2 * length X <= L.
Proof.
  intros (H1 & _ & _ & _ & H5 & _). pose proof (vdata_fits _ _ (proj2 H1)) as Hf. rewrite (reals_len _ _ (proj2 H1)), complex_to_array_length in *. lia.
Qed.
Lemma holds_resize L d w X Y m : holds L d w X -> 2 * m <= L -> length Y = m -> take (2 * m) (elems w) = complex_to_array Y ->
  exists w', Model_Vec.resize n0 w (2 * m) = (w', Ok tt) /\ holds L d w' Y /\ elems w' = elems w /\ delta w' = delta w.
Proof.
  intros (H1 & H2 & H3 & H4 & H5 & H6) Hm HY Ht. exists (set_valid_len w (2 * m)). unfold Model_Vec.resize. rewrite <- Nat.negb_even, even_double, andb_false_r.
  rewrite H5. rewrite (proj2 (Nat.ltb_ge _ _) Hm). split; [done|]. split; [|done]. split; [|done]. split; [exact (proj1 H1)|].
  apply (vdata_intro _ _ (drop (2 * m) (elems w))); [by rewrite <- Ht, take_drop|]. cbn. by rewrite complex_to_array_length, HY.
Qed.

Lemma borrowed_holds (v : dvec A) d n (c : list (A * A)) : vdata v = Done d -> Nat.even (length d) = true -> length c = n -> 2 * n <= length d ->
  take (2 * n) d = complex_to_array c ->
  exists w0 w, borrowed v (length d) = Done w0 /\ Model_Vec.resize n0 w0 (2 * n) = (w, Ok tt) /\ holds (length d) Time w c /\ delta w = n1.
Proof.
  intros Hv He Hc Hn Ht. set (X := pairs_of d). assert (EX : complex_to_array X = d) by (by apply complex_to_array_pairs_of).
  unfold borrowed. rewrite Hv, bind_Done, slice_Done, bind_Done by lia. rewrite drop_0, Nat.sub_0_r, take_ge by lia.
  unfold construct, s_len. cbn [s_elems s_kind]. rewrite He. cbv zeta. set (w0 := DVec _ _ _ _ _).
  assert (H0 : holds (length d) Time w0 X).
  { split_and!; try done.
    - split; [done|]. rewrite EX. apply (vdata_intro w0 d []); [by rewrite app_nil_r | done].
    - intros (? & ? & E & _). done. }
  destruct (holds_resize _ _ _ _ c n H0 Hn Hc Ht) as (w & E & Hw & _ & Hd). exists w0, w. split; [done|]. split; [done|]. split; [done|]. by rewrite Hd.
Qed.

(** A part of the points *)
Lemma on_range_spec (w : dvec A) X a z f Y : cplx w X -> a <= z <= length X -> length Y = z - a ->
  (forall u, cplx u (take (z - a) (drop a X)) -> delta u = n1 -> exists u', f u = Done u' /\ cplx u' Y /\ same_rest u u') ->
  exists w', on_range w (2 * a) (2 * z) f = Done w' /\ cplx w' (take a X ++ Y ++ drop z X) /\ same_meta w w' /\ same_rest w w'.
Proof.
  intros Hw Haz HY Hf. destruct (vdata_split _ _ (proj2 Hw)) as (rest & He & Hn). unfold on_range. rewrite (proj2 Hw), bind_Done.
  rewrite slice_Done by (rewrite ?complex_to_array_length; lia). rewrite bind_Done. rewrite complex_to_array_drop.
  replace (2 * z - 2 * a) with (2 * (z - a)) by lia. rewrite complex_to_array_take. set (part := take (z - a) (drop a X)) in *.
  assert (Hlp : length part = z - a) by (unfold part; rewrite take_length, drop_length; lia).
  unfold construct, s_len. cbn [s_elems s_kind]. rewrite complex_to_array_length, even_double. cbv zeta. rewrite bind_Done. set (u := DVec _ _ _ _ _).
  assert (Hu : cplx u part). { split; [done|]. apply (vdata_intro u _ []); [by rewrite app_nil_r | by cbn; rewrite complex_to_array_length]. }
  destruct (Hf u Hu eq_refl) as (u' & -> & Hu' & Hr). rewrite bind_Done.
  assert (Heu : elems u' = complex_to_array Y).
  { destruct (vdata_split _ _ (proj2 Hu')) as (r' & He' & Hn'). destruct Hr as (_ & _ & Hv & Hd). rewrite He' in *.
    change (elems u) with (complex_to_array part) in Hd. rewrite (drop_ge (complex_to_array part)) in Hd by (cbn; rewrite complex_to_array_length; lia).
    replace (valid_len u) with (length (complex_to_array Y)) in Hd by (cbn; rewrite complex_to_array_length; lia).
    rewrite drop_app in Hd. subst r'. by rewrite app_nil_r. }
  rewrite Heu, splice_Done by (rewrite He, app_length, !complex_to_array_length; lia). rewrite bind_Done. eexists. split; [reflexivity|].
  assert (Enew : take (2 * a) (elems w) ++ complex_to_array Y ++ drop (2 * a + length (complex_to_array Y)) (elems w) = complex_to_array (take a X ++ Y ++ drop z X) ++ rest).
  { rewrite He. rewrite take_app_le by (rewrite complex_to_array_length; lia). rewrite drop_app_le by (rewrite !complex_to_array_length; lia).
    rewrite complex_to_array_length, HY. replace (2 * a + 2 * (z - a)) with (2 * z) by lia. rewrite complex_to_array_take, complex_to_array_drop.
    by rewrite !complex_to_array_app, <- !app_assoc. }
  assert (Hll : length (take a X ++ Y ++ drop z X) = length X) by (rewrite !app_length, take_length, drop_length; lia).
  rewrite Enew. split; [|split; [done|]].
  - split; [exact (proj1 Hw)|]. apply (vdata_intro _ _ rest); [done|]. cbn. by rewrite Hn, !complex_to_array_length, Hll.
  - split_and!; try done. rewrite Hn. change (elems (set_elems w ?l)) with l. rewrite He. rewrite drop_app. rewrite complex_to_array_length, <- Hll, <- complex_to_array_length. by rewrite drop_app.
Qed.

Lemma holds_zero_pad L d w X m : holds L d w X -> length X < m -> 2 * m <= L -> exists w' left,
  zero_pad n0 w m Center = Done (w', Ok tt) /\ holds L d w' (padded (n0, n0) Center left m X).
Proof.
  intros Hw Hm HL. pose proof (holds_len _ _ _ _ Hw) as [Hlen _]. destruct Hw as (H1 & H2 & H3 & H4 & H5 & H6).
  assert (Hr : Model_Vec.resize n0 w (2 * m) = (set_valid_len w (2 * m), Ok tt)).
  { unfold Model_Vec.resize. rewrite <- Nat.negb_even, even_double, andb_false_r, H5. by rewrite (proj2 (Nat.ltb_ge _ _) HL). }
  destruct (zero_pad_cplx n0 w X m Center H1 Hm) as [(e & _ & E)|(w' & E & (M1 & M2 & M3) & Hw')]; [congruence|].
  exists w', ((m - length X) / 2 + 1). split; [done|]. unfold holds, vdomain, typed, runtime. rewrite M2, M3. split_and!; try done.
  - unfold zero_pad in E. rewrite (proj1 H1) in E. cbv zeta in E. replace (m * 2) with (2 * m) in E by lia. rewrite Hr in E. rewrite Hlen in E.
    destruct (2 * m <=? 2 * length X) eqn:El; [done|]. binv E. deep; lens; unfold alloc_len, s_len; cbn; unfold elems in *; cbn in *; congruence.
  - unfold zero_pad in E. rewrite (proj1 H1) in E. cbv zeta in E. replace (m * 2) with (2 * m) in E by lia. rewrite Hr in E. rewrite Hlen in E.
    destruct (2 * m <=? 2 * length X) eqn:El; [done|]. binv E. done.
Qed.

Lemma to_real_inplace (v : dvec A) (op : A * A -> A) c : vdata v = Done (complex_to_array c) -> exists v',
  pure_complex_to_real_operation_inplace op v = Done v' /\ vdata v' = Done (map op c) /\ same_meta v v'.
Proof.
  intros Hv. destruct (vdata_split v _ Hv) as (rest & He & Hn). unfold pure_complex_to_real_operation_inplace.
  rewrite Hn, complex_to_array_length, Proof_SimdOps.div2_double, He, inplace_half, bind_Done. eexists. split; [reflexivity|]. split; [|done].
  apply (vdata_intro _ (map op c) (drop (length c) (complex_to_array c ++ rest))); [done|]. cbn. by rewrite map_length.
Qed.
End any.

(** ** Over the real numbers *)
Local Open Scope R_scope.
Local Notation C := (R * R)%type.
Local Notation sel l k := (default ((0, 0) : C) (l !! k)).

Lemma polar_circle x : fpolar n1 x = circle x.
Proof. cbn. unfold circle. by rewrite !Rmult_1_l. Qed.

(** The delay as the code applies it: the bins from [n / 2] on have negative frequencies. *)
Definition signed (n k : nat) : Z := if (k <? n / 2)%nat then Z.of_nat k else (Z.of_nat k - Z.of_nat n)%Z.
Definition delayed (d : R) (X : list C) : list C :=
  imap (fun k x => cmul x (circle (2 * PI * IZR (signed (length X) k) * d / INR (length X)))) X.
Lemma delayed_even d X : Nat.even (length X) = true -> delayed d X = phased d X.
Proof.
  intros He. apply imap_ext. intros k x _. unfold signed, frequency. apply Nat.even_spec in He as [j Hj]. rewrite Hj.
  replace (2 * j / 2)%nat with j by (rewrite Nat.mul_comm, Nat.div_mul; lia). by replace (2 * j - j)%nat with j by lia.
Qed.

Lemma linear_phase_spec L s sched sched' d (w : dvec R) X : holds L Frequency w X -> (0 < length X)%nat -> exists w',
  apply_linear_phase s sched sched' d w = Done w' /\ holds L Frequency w' (delayed d X).
Proof.
  intros Hw Hn0. destruct (holds_len _ _ _ _ Hw) as [Hlen _]. set (n := length X) in *. pose proof (halves_le n) as Hh. pose proof (Proof_Dft.INR_pos n Hn0) as Hn.
  unfold apply_linear_phase. cbv zeta. rewrite Hlen. rewrite Proof_SimdOps.div2_double. rewrite (usub_Done n) by done. rewrite bind_Done.
  set (a := (n / 2)%nat) in *. set (inc := (_ / _)%num).
  assert (Einc : inc = 2 * PI * d / INR n). { done. }
  set (Y := imap (fun i x => cmul x (fpolar n1 ((inc * nofnat i + (nopp (nofnat (n - a)) * inc)) * n1)%num)) (take (n - a) (drop a X))).
  assert (HY : length Y = (n - a)%nat). { unfold Y. rewrite imap_length, take_length, drop_length. fold n. lia. }
  destruct (on_range_spec w X a n (multiply_complex_exponential s sched inc (nopp (nofnat (n - a)) * inc)%num) Y (proj1 Hw)) as (w1 & E1 & Hw1 & Hm1 & Hr1).
  { fold n. lia. } { exact HY. }
  { intros u Hu Hd. destruct (exponential_spec R_exact s sched inc (nopp (nofnat (n - a)) * inc)%num u _ R_polar eq_refl S_INR Hu) as (u' & Eu & Hu' & _ & Hr).
    exists u'. rewrite Hd in Hu'. done. }
  rewrite E1, bind_Done. clear E1. rewrite (drop_ge X n) in Hw1 by (fold n; lia). rewrite app_nil_r in Hw1.
  set (X1 := take a X ++ Y) in *. assert (HX1 : length X1 = n) by (unfold X1; rewrite app_length, take_length; fold n; lia).
  set (Y2 := imap (fun i x => cmul x (fpolar n1 ((inc * nofnat i + n0) * n1)%num)) (take (a - 0) (drop 0 X1))).
  destruct (on_range_spec w1 X1 0 a (multiply_complex_exponential s sched' inc n0) Y2 Hw1) as (w2 & E2 & Hw2 & Hm2 & Hr2).
  { lia. } { unfold Y2. rewrite imap_length, take_length, drop_length. lia. }
  { intros u Hu Hd. destruct (exponential_spec R_exact s sched' inc n0 u _ R_polar eq_refl S_INR Hu) as (u' & Eu & Hu' & _ & Hr).
    exists u'. rewrite Hd in Hu'. done. }
  exists w2. split; [exact E2|].
  assert (EE : take 0 X1 ++ Y2 ++ drop a X1 = delayed d X).
  { rewrite take_0. cbn [app]. assert (HY2 : length Y2 = a). { unfold Y2. rewrite imap_length, take_length, drop_length. lia. }
    apply list_eq. intros k. unfold delayed. rewrite list_lookup_imap. fold n.
    destruct (decide (k < a)%nat) as [Hk|Hk].
    - rewrite lookup_app_l by lia. unfold Y2. rewrite list_lookup_imap, drop_0, Nat.sub_0_r, lookup_take by done. unfold X1.
      rewrite lookup_app_l by (rewrite take_length; fold n; lia). rewrite lookup_take by done. destruct (X !! k) as [x|]; [|done]. cbn [fmap option_fmap option_map]. f_equal. f_equal.
      rewrite polar_circle. f_equal. unfold signed. fold a. rewrite (proj2 (Nat.ltb_lt k a)) by done. rewrite <- INR_IZR_INZ, Einc. cbn [nadd nmul n1 n0 nofnat Rnum]. field. lra.
    - rewrite lookup_app_r by lia. rewrite HY2, lookup_drop. replace (a + (k - a))%nat with k by lia. unfold X1.
      rewrite lookup_app_r by (rewrite take_length; lia). rewrite take_length. fold n. rewrite (Nat.min_l a n) by lia. unfold Y. rewrite list_lookup_imap.
      destruct (decide (k < n)%nat) as [Hkn|Hkn].
      2: { rewrite lookup_take_ge by lia. rewrite (lookup_ge_None_2 X k) by (fold n; lia). done. }
      rewrite lookup_take by lia. rewrite lookup_drop. replace (a + (k - a))%nat with k by lia. destruct (X !! k) as [x|]; [|done]. cbn [fmap option_fmap option_map]. f_equal. f_equal.
      rewrite polar_circle. f_equal. unfold signed. fold a. rewrite (proj2 (Nat.ltb_ge k a)) by lia. rewrite minus_IZR, <- !INR_IZR_INZ, Einc.
      cbn [nadd nmul n1 n0 nopp nofnat Rnum]. rewrite !minus_INR by lia. field. lra. }
  rewrite EE in Hw2. apply (holds_same _ _ w1 X1); try done. by apply (holds_same _ _ w X).
Qed.

Section frequency.
Context `{F : Fft R} (HF : computes_dft).
Let Hlf : forall c : list C, length (fft_forward c) = length c.
Proof using HF. intros c. destruct HF as (-> & _). apply dft_length. Qed.
Let Hli : forall c : list C, length (fft_inverse c) = length c.
Proof using HF. intros c. destruct HF as (_ & -> & _). apply dft_length. Qed.

Lemma fft_holds L b (w : dvec R) c : holds L Time w c -> spare b (2 * fft_inplace_scratch_len (length c)) -> exists w' b',
  plain_fft b w = Done (w', b') /\ holds L Frequency w' (dft (-1) c) /\ still_spare b b'.
Proof using HF.
  intros (H1 & H2 & H3 & H4 & H5 & H6) Hb. destruct (plain_fft_any Hlf b w c H1 H2 H3 Hb) as (w' & b' & E & K1 & K2 & K3 & _ & K5 & K6 & K7).
  exists w', b'. destruct HF as (HF1 & _). rewrite HF1 in K1. split_and!; try done. split_and!; try done.
  - intros Hr. by apply H4, K6.
  - rewrite (alloc_rest w w'); try done; [by apply (vdata_fits _ _ (proj2 H1)) | by apply (vdata_fits _ _ (proj2 K1))].
  - by rewrite (proj1 K3).
Qed.
Lemma ifft_holds L b (w : dvec R) X : holds L Frequency w X -> spare b (2 * fft_inplace_scratch_len (length X)) -> exists w' b',
  plain_ifft b w = Done (w', b') /\ holds L Time w' (dft 1 X) /\ still_spare b b'.
Proof using HF.
  intros (H1 & H2 & H3 & H4 & H5 & H6) Hb. destruct (plain_ifft_any Hli b w X H1 H2 H3 Hb) as (w' & b' & E & K1 & K3 & _ & K2 & _ & K5 & K6 & K7).
  exists w', b'. destruct HF as (_ & HF2 & _). rewrite HF2 in K1. split_and!; try done. split_and!; try done.
  - by apply K2.
  - intros Hr. by apply H4, K6.
  - rewrite (alloc_rest w w'); try done; [by apply (vdata_fits _ _ (proj2 H1)) | by apply (vdata_fits _ _ (proj2 K1))].
  - by rewrite (proj1 K3).
Qed.
Lemma scale_holds L d r addr s sched k (w : dvec R) X : aligned_all r addr -> holds L d w X -> exists w',
  scale_real r addr s sched k w = Done w' /\ holds L d w' (map (rscale k) X).
Proof using.
  clear. intros (Hr & Ha & Hh & _) Hw. destruct (scale_real_spec r addr s sched k w Hr Ha) as [_ Hs]; [by left|].
  destruct (Hs X (proj1 Hw)) as (w' & E & K1 & K2 & K3). exists w'. split; [done|]. by apply (holds_same _ _ w X).
Qed.
Lemma scale_vdata r addr s sched k (v : dvec R) c : aligned_all r addr -> vdata v = Done (complex_to_array c) -> exists v',
  scale_real r addr s sched k v = Done v' /\ vdata v' = Done (complex_to_array (map (rscale k) c)) /\ same_meta v v'.
Proof using.
  clear. intros (Hr & Ha & Hh & _) Hv. destruct (scale_real_spec r addr s sched k v Hr Ha) as [Hs Hs']; [by left|].
  destruct (is_complex v) eqn:Ec.
  - destruct (Hs' c (conj Ec Hv)) as (w' & E & K1 & K2 & K3). exists w'. split; [done|]. split; [|done]. exact (proj2 K1).
  - destruct (Hs _ (conj Ec Hv)) as (w' & E & K1 & K2 & K3). exists w'. split; [done|]. split; [|done]. rewrite (proj2 K1). f_equal.
    clear. induction c as [|[x y] c IH]; [done|]. cbn. f_equal. f_equal. apply IH.
Qed.
Lemma downsample_holds L r addr s sched m (w : dvec R) X : aligned_all r addr -> holds L Frequency w X -> (m < length X)%nat -> exists w',
  interpolate_downsample r addr s sched m w = Done w' /\ holds L Frequency w' (map (rscale (INR (2 * m) / INR (2 * length X))) (reduced m X)).
Proof using.
  clear. intros Hal Hw Hm. destruct (holds_len _ _ _ _ Hw) as [Hlen HL]. pose proof (halves_le m) as Hh. unfold interpolate_downsample. cbv zeta.
  rewrite Hlen, usub_Done, bind_Done by lia. destruct (vdata_split _ _ (proj2 (proj1 Hw))) as (rest & He & _).
  assert (Hall : length (elems w) = L) by (destruct Hw as (_ & _ & _ & _ & <- & _); done).
  set (a := (m - m / 2)%nat). set (z := (m / 2)%nat) in *. set (n := length X) in *.
  replace (2 * (z + a))%nat with (2 * m)%nat by (unfold a; lia).
  unfold memcpy, assert_. rewrite (proj2 (Nat.leb_le _ _)) by lia. rewrite (proj2 (Nat.leb_le _ _)) by lia. rewrite (proj2 (Nat.leb_le _ _)) by (unfold a; lia).
  rewrite !bind_Done. replace (2 * n - (2 * n - 2 * z))%nat with (2 * z)%nat by lia. replace (2 * n - 2 * z)%nat with (2 * (n - z))%nat by lia.
  set (l := take (2 * a) (elems w) ++ _).
  assert (El : take (2 * m) l = complex_to_array (reduced m X)).
  { unfold l. rewrite He. rewrite (take_app_le (complex_to_array X) rest (2 * a)) by (rewrite complex_to_array_length; unfold a; fold n; lia). rewrite complex_to_array_take.
    rewrite (drop_app_le (complex_to_array X)) by (rewrite complex_to_array_length; fold n; lia). rewrite complex_to_array_drop.
    rewrite (take_app_le (complex_to_array (drop (n - z) X))) by (rewrite complex_to_array_length, drop_length; fold n; lia).
    rewrite complex_to_array_take. rewrite (take_ge (drop (n - z) X)) by (rewrite drop_length; fold n; lia).
    rewrite app_assoc, <- complex_to_array_app. fold a. unfold reduced. fold n z a.
    assert (Hlr : length (complex_to_array (take a X ++ drop (n - z) X)) = (2 * m)%nat). { rewrite complex_to_array_length, app_length, take_length, drop_length. fold n. unfold a. lia. }
    rewrite <- Hlr. apply take_app. }
  assert (Hl : length l = length (elems w)).
  { unfold l. rewrite !app_length, !take_length, !drop_length. unfold a. lia. }
  assert (Hw1 : exists X1, holds L Frequency (set_elems w l) X1 /\ length X1 = n).
  { destruct Hw as ((H1 & Hv) & H2 & H3 & H4 & H5 & H6). exists (pairs_of (take (2 * n) l)).
    assert (Hl2 : length (take (2 * n) l) = (2 * n)%nat) by (rewrite take_length; lia). split; [|rewrite pairs_of_length, Hl2; apply Proof_SimdOps.div2_double].
    split_and!; try done.
    - split; [done|]. rewrite complex_to_array_pairs_of by (rewrite Hl2; apply even_double). apply (vdata_intro _ _ (drop (2 * n) l)); [by rewrite take_drop|].
      change (valid_len (set_elems w l)) with (len w). lia.
    - unfold alloc_len, s_len. change (s_elems (Model_Vec.data (set_elems w l))) with l. by rewrite Hl. }
  destruct Hw1 as (X1 & Hw1 & _).
  destruct (holds_resize _ _ _ _ (reduced m X) m Hw1) as (w2 & E2 & Hw2 & _ & _); [lia | apply reduced_length; fold n; lia | exact El|].
  rewrite E2. apply scale_holds; done.
Qed.

Lemma pairs_up_enough s n : pairs_up s n -> enough_pieces s n.
Proof using.
  clear. unfold pairs_up, enough_pieces. set (k := threads s n). clearbody k. intros [[-> Hn]|(Hk & Hn & Hm)].
  - split; [lia|]. exists ((n + 1) / 2)%nat. pose proof (Nat.div_mod (n + 1) 2 ltac:(lia)). pose proof (Nat.mod_upper_bound (n + 1) 2 ltac:(lia)).
    split_and!; [lia | lia | intros; lia].
  - split; [done|]. exists (n / (2 * k))%nat. pose proof (Nat.div_mod n (2 * k) ltac:(lia)) as E. rewrite Hm, Nat.add_0_r in E. set (q := (n / (2 * k))%nat) in *. clearbody q.
    split_and!; [lia | nia | intros; nia].
Qed.

(** The gain at the bins of a longer spectrum *)
Lemma half_even m : Nat.even m = true -> (m - m mod 2)%nat = m /\ INR m / 2 = INR (m / 2) /\ (2 * (m / 2) = m)%nat.
Proof using.
  clear. intros He. apply Nat.even_spec in He as [j ->]. replace (2 * j / 2)%nat with j by (rewrite Nat.mul_comm, Nat.div_mul; lia).
  replace (2 * j mod 2)%nat with 0%nat by (rewrite Nat.mul_comm, Nat.mod_mul; lia). split; [lia|]. split; [|lia]. rewrite mult_INR. cbn. lra.
Qed.
Lemma half_odd m : Nat.odd m = true -> INR (m - m mod 2) / 2 = INR (m / 2) /\ (2 * (m / 2) + 1 = m)%nat.
Proof using.
  clear. intros He. apply Nat.odd_spec in He as [j ->]. replace ((2 * j + 1) / 2)%nat with j. 2: { apply (Nat.div_unique _ 2 j 1); lia. }
  replace ((2 * j + 1) mod 2)%nat with 1%nat. 2: { apply (Nat.mod_unique _ 2 j 1); lia. } split; [|lia]. rewrite Nat.add_sub, mult_INR. cbn. lra.
Qed.

(** The bins of a longer spectrum *)
Lemma response_bins (h : response R R) (n m : nat) s sched (l : list C) : (1 < m)%nat -> length l = m -> foldable h s m ->
  exists G, multiply_function_points cmul (r_symmetric h) true (INR m / INR n) (INR m / INR n, 0) (fun x => (r_calc h x, 0)) s sched m l =
    Done (imap (fun p x => cmul x (cmul (INR m / INR n, 0) (G p, 0))) l) /\
    (forall p, (p < m - m / 2)%nat -> (2 * p < m)%nat -> G p = placed_gain h n m (Z.of_nat p)) /\
    (forall p, (m - m / 2 <= p < m)%nat -> G p = placed_gain h n m (Z.of_nat p - Z.of_nat m)).
Proof using.
  clear. intros Hm Hl Hp. unfold foldable in Hp.
  assert (Hmul : forall x y z : C, cmul (cmul x y) z = cmul x (cmul y z)) by (intros; ring).
  assert (Hc : 0 < INR (m / 2)). { apply Proof_Dft.INR_pos. pose proof (Nat.div_mod m 2 ltac:(lia)). pose proof (Nat.mod_upper_bound m 2 ltac:(lia)). lia. }
  assert (Hodd : Nat.even m = false -> Nat.odd m = true) by (intros K; by rewrite <- Nat.negb_even, K).
  assert (Hplace : place m = fun p => - INR (m / 2) + INR p).
  { unfold place. destruct (Nat.even m) eqn:Hev; [destruct (half_even m Hev) as (-> & -> & _) | destruct (half_odd m (Hodd eq_refl)) as (-> & _)]; done. }
  assert (Hcen : INR (m - m mod 2) / 2 = INR (m / 2)).
  { destruct (Nat.even m) eqn:Hev; [destruct (half_even m Hev) as (-> & -> & _) | destruct (half_odd m (Hodd eq_refl)) as (-> & _)]; done. }
  assert (Hup : forall x, x <= 0 -> fft_swap_x true x (INR (m / 2)) = 1 + x / INR (m / 2)).
  { intros x Hx. unfold fft_swap_x. cbn [negb]. change (fleb x n0) with (Rleb x 0). by rewrite (proj2 (Rleb_true _ _)) by lra. }
  assert (Hdown : forall x, 0 < x -> fft_swap_x true x (INR (m / 2)) = - (INR (m / 2) - x + 1) / INR (m / 2)).
  { intros x Hx. unfold fft_swap_x. cbn [negb]. change (fleb x n0) with (Rleb x 0). destruct (Rleb x 0) eqn:El; [apply Rleb_true in El; lra|]. done. }
  assert (Hlow : forall p, (2 * p < m)%nat -> INR p <= INR (m / 2)).
  { intros p H1. apply le_INR. pose proof (Nat.div_mod m 2 ltac:(lia)). pose proof (Nat.mod_upper_bound m 2 ltac:(lia)). lia. }
  unfold placed_gain. destruct (r_symmetric h).
  - specialize (Hp eq_refl). assert (Hen : enough_pieces s m) by (apply pairs_up_enough; done).
    destruct (multiply_function_folded cmul Hmul true (INR m / INR n) (INR m / INR n, 0) (fun x => (r_calc h x, 0)) s sched m l) as (k & K1 & K2 & K3 & K4).
    { by rewrite Hl. }
    rewrite Hl in *. rewrite K4. rewrite Hcen, Hplace. eexists (fun p => r_calc h (fft_swap_x true (if (p <? k)%nat then - INR (m / 2) + INR p else - (- INR (m / 2) + INR p)) (INR (m / 2)) * (INR m / INR n))). split; [done|].
    specialize (K3 Hp). pose proof (Nat.div_mod m 2 ltac:(lia)) as Em. pose proof (Nat.mod_upper_bound m 2 ltac:(lia)). assert (k = (m - m / 2)%nat) as -> by lia. split; intros p Hpm.
    + intros H2. rewrite (proj2 (Nat.ltb_lt p (m - m / 2))) by lia. rewrite (proj2 (Z.leb_le 0 (Z.of_nat p))) by lia. pose proof (Hlow p H2). rewrite Hup by lra.
      unfold response_gain. f_equal. f_equal. rewrite <- INR_IZR_INZ. field. lra.
    + rewrite (proj2 (Nat.ltb_ge p (m - m / 2))) by lia. rewrite (proj2 (Z.leb_gt 0 _)) by lia.
      assert (Hlt : INR (m / 2) <= INR p) by (apply le_INR; lia). rewrite Hup by lra. unfold response_gain. f_equal. f_equal. destruct (Nat.even m) eqn:Hev.
      * destruct (half_even m Hev) as (_ & _ & E3). assert (Emm : INR m = 2 * INR (m / 2)) by (rewrite <- E3 at 1; rewrite mult_INR; cbn; ring).
        rewrite opp_IZR, minus_IZR, <- !INR_IZR_INZ, Emm. field. lra.
      * destruct (half_odd m (Hodd eq_refl)) as (_ & E3). assert (Emm : INR m = 2 * INR (m / 2) + 1) by (rewrite <- E3 at 1; rewrite plus_INR, mult_INR; cbn; ring).
        rewrite minus_IZR, opp_IZR, minus_IZR, <- !INR_IZR_INZ, Emm. field. lra.
  - pose proof (multiply_function_plain cmul Hmul true (INR m / INR n) (INR m / INR n, 0) (fun x => (r_calc h x, 0)) s sched l) as K. cbv zeta in K. rewrite Hl, Hcen in K.
    rewrite K by (left; intros ->; cbn in Hl; lia). clear K. rewrite Hplace.
    eexists (fun p => r_calc h (fft_swap_x true (- INR (m / 2) + INR p) (INR (m / 2)) * (INR m / INR n))). split; [done|]. pose proof (Nat.div_mod m 2 ltac:(lia)) as Em. split; intros p Hpm.
    + intros H2. rewrite (proj2 (Z.leb_le 0 (Z.of_nat p))) by lia. pose proof (Hlow p H2). rewrite Hup by lra. unfold response_gain. f_equal. f_equal. rewrite <- INR_IZR_INZ. field. lra.
    + rewrite (proj2 (Z.leb_gt 0 _)) by lia. unfold response_gain. f_equal. f_equal. destruct (Nat.even m) eqn:Hev.
      * destruct (half_even m Hev) as (_ & _ & E3). assert (Emm : INR m = 2 * INR (m / 2)) by (rewrite <- E3 at 1; rewrite mult_INR; cbn; ring).
        destruct (Z.eqb_spec (Z.of_nat p - Z.of_nat m) (- Z.of_nat (m / 2))).
        -- assert (p = (m / 2)%nat) as -> by lia. rewrite Hup by lra. rewrite opp_IZR, minus_IZR, <- !INR_IZR_INZ, Emm. field. lra.
        -- assert (Hlt : INR (m / 2) < INR p) by (apply lt_INR; lia). rewrite Hdown by lra. rewrite !minus_IZR, <- !INR_IZR_INZ, Emm. field. lra.
      * destruct (half_odd m (Hodd eq_refl)) as (_ & E3). assert (Emm : INR m = 2 * INR (m / 2) + 1) by (rewrite <- E3 at 1; rewrite plus_INR, mult_INR; cbn; ring).
        assert (Hlt : INR (m / 2) < INR p) by (apply lt_INR; lia). rewrite Hdown by lra. rewrite minus_IZR, <- !INR_IZR_INZ, Emm. field. lra.
Qed.

(** Under the conditions above the gain is at the right bins. *)
Lemma placed_centered h n m f : centered h m -> placed_gain h n m f = response_gain (r_calc h) n m f.
Proof using.
  clear. unfold placed_gain. intros [(-> & He & ->)|(-> & Ho)].
  - destruct (0 <=? f)%Z; [done|]. unfold response_gain. rewrite <- (He (IZR f / INR (m / 2) * (INR m / INR n))). f_equal. rewrite opp_IZR. cbn [nopp Rnum]. unfold Rdiv. ring.
  - destruct (0 <=? f)%Z; [done|]. rewrite <- Nat.negb_odd, Ho. done.
Qed.
Lemma placed_gain_centered function n m f : (forall h, function = Some h -> (n < m)%nat -> centered h m) -> placed function n m f = gain function n m f.
Proof using.
  clear. intros Hc. unfold placed, gain. destruct function as [h|]; [|done]. destruct (Nat.ltb_spec n m); [|done]. apply placed_centered. by apply Hc.
Qed.

Lemma upsample_holds L r addr s sched function n m (w : dvec R) X : aligned_all r addr -> holds L Frequency w X -> length X = m -> (0 < n)%nat -> (n < m)%nat ->
  (forall h, function = Some h -> foldable h s m) -> exists w' Q G,
  interpolate_upsample r addr s sched function (INR m / INR n) w = Done w' /\ holds L Frequency w' Q /\ length Q = m /\
  (forall p, (p < m)%nat -> sel Q p = cmul (sel X p) (cmul (INR m / INR n, 0) (G p, 0))) /\
  (forall k, (k < n)%nat -> G (moved n m k) = placed function n m (frequency n k)).
Proof using.
  clear. intros Hal Hw Hl Hn Hm Hf. destruct function as [h|]; unfold interpolate_upsample.
  - destruct (response_bins h n m s sched X) as (G & E & G1 & G2); [lia | done | by apply Hf|].
    set (f := multiply_function_points cmul (r_symmetric h) true (INR m / INR n) (INR m / INR n, 0) (fun x => (r_calc h x, 0)) s sched) in *.
    assert (E' : f (length X) X = Done (imap (fun p x => cmul x (cmul (INR m / INR n, 0) (G p, 0))) X)) by (rewrite Hl; exact E).
    destruct (on_points_spec f w X _ (proj1 Hw) E' (imap_length _ _)) as (w' & Ew & K1 & K2 & K3).
    exists w', (imap (fun p x => cmul x (cmul (INR m / INR n, 0) (G p, 0))) X), G. split; [exact Ew|]. split; [by apply (holds_same _ _ w X)|].
    split; [by rewrite imap_length|]. split.
    + intros p Hp. rewrite list_lookup_imap. destruct (lookup_lt_is_Some_2 X p) as [x ->]; [lia|]. done.
    + intros k Hk. unfold placed. rewrite (proj2 (Nat.ltb_lt n m)) by done. destruct (halves_mono n m) as [Ha Hb]; [lia|]. unfold moved, frequency.
      pose proof (Nat.div_mod m 2 ltac:(lia)). pose proof (Nat.mod_upper_bound m 2 ltac:(lia)). pose proof (Nat.div_mod n 2 ltac:(lia)). pose proof (Nat.mod_upper_bound n 2 ltac:(lia)).
      destruct (Nat.ltb_spec k (n - n / 2)).
      * apply G1; lia.
      * rewrite G2 by lia. f_equal. lia.
  - destruct (scale_holds L Frequency r addr s sched (INR m / INR n) w X Hal Hw) as (w' & E & Hw').
    exists w', (map (rscale (INR m / INR n)) X), (fun _ => 1). split; [exact E|]. split; [done|]. split; [by rewrite map_length|]. split.
    + intros p Hp. change (map ?ff X) with (ff <$> X). rewrite list_lookup_fmap. destruct (lookup_lt_is_Some_2 X p) as [x ->]; [lia|].
      cbn [fmap option_fmap option_map default]. destruct x as [x y]. unfold rscale, cmul. cbn. f_equal; ring.
    + intros k Hk. unfold placed. rewrite band_up; [done | done | lia].
Qed.

(** What is left to do once the data is complex *)
Definition interpolate_from (r : reg_type) (addr : nat) (s sc : settings) (sch : schedules) (b : buffer R) (v : dvec R) (function : option (response R R))
    (dest_points : nat) (delay delta_t factor : R) (orig_is_complex : bool) (orig_len dest_len : nat) : run (dvec R * buffer R * result unit) :=
    let complex_orig_len := len v in
    let complex_dest_len := (2 * dest_points)%nat in
    let max_len := Nat.max complex_orig_len complex_dest_len in
    '(v, b, res) ← resize_b n0 b v max_len;
    match res with
    | Err e => Done (v, b, Err e)
    | Ok _ =>
        complex ← borrowed v max_len;
        match Model_Vec.resize n0 complex complex_orig_len with
        | (complex, Ok _) =>
            '(complex, _) ← plain_fft (no_trade b) complex;
            complex ← (if feqb delay n0 then Done complex else apply_linear_phase sc (sch_neg sch) (sch_pos sch) (delay / delta_t)%num complex);
            '(complex, res) ← (if (orig_len <? dest_len)%nat then
                  '(complex, res) ← zero_pad n0 complex dest_points Center;
                  match res with
                  | Err e => Done (complex, Err e)
                  | Ok _ => complex ← interpolate_upsample r addr sc (sch_mul sch) function factor complex; Done (complex, Ok tt)
                  end
                else if (dest_len <? orig_len)%nat then
                  complex ← interpolate_downsample r addr sc (sch_mul sch) dest_points complex; Done (complex, Ok tt)
                else Done (complex, Ok tt));
            match res with
            | Err e => l ← splice (elems v) 0 (elems complex); Done (set_elems v l, b, Err e)
            | Ok _ =>
                '(complex, _) ← plain_ifft (no_trade b) complex;
                l ← splice (elems v) 0 (elems complex);
                match Model_Vec.resize n0 (set_elems v l) complex_dest_len with
                | (v, Ok _) =>
                    v ← scale_real r addr s (sch_scale sch) (n1 / nofnat dest_points)%num v;
                    let v := set_delta v (delta_t / factor)%num in
                    if negb orig_is_complex then v ← pure_complex_to_real_operation_inplace fst v; Done (v, b, Ok tt) else Done (v, b, Ok tt)
                | _ => Panicked
                end
            end
        | _ => Panicked
        end
    end.
Lemma interpolate_from_spec r addr s sc sch b v function m delay : interpolate r addr s sc sch b v function m delay =
  if match function with Some h => negb (r_symmetric h) && negb (is_complex v) | None => false end then Done (v, b, Err ArgumentFunctionMustBeSymmetric)
  else '(v1, b1) ← (if negb (is_complex v) then zero_interleave_b n0 b v 2 else Done (v, b));
    interpolate_from r addr s sc sch b1 v1 function m delay (delta v) (nofnat m / nofnat (points v))%num (is_complex v) (len v) (if is_complex v then 2 * m else m)%nat.
Proof using. reflexivity. Qed.

(** The spectrum of [c] after the delay is that of [c0], delayed by [d0]. *)
Definition delays_to (c : list C) (delay d : R) (c0 : list C) (d0 : R) : Prop :=
  length c0 = length c /\ (if Reqb delay 0 then dft (-1) c else delayed d (dft (-1) c)) = phased d0 (dft (-1) c0).
Theorem interpolate_core' r addr s sc sch b (v : dvec R) function c m delay delta_t oc ol dl c0 d0 :
  vdata v = Done (complex_to_array c) -> c <> [] -> (0 < m)%nat -> aligned_all r addr -> lends b v (2 * Nat.max (length c) m) ->
  spare b (2 * fft_inplace_scratch_len (length c)) -> spare b (2 * fft_inplace_scratch_len m) ->
  (ol <? dl)%nat = (length c <? m)%nat -> (dl <? ol)%nat = (m <? length c)%nat ->
  delays_to c delay (delay / delta_t) c0 d0 -> (forall h, function = Some h -> (length c < m)%nat -> foldable h sc m) ->
  exists v' b', interpolate_from r addr s sc sch b v function m delay delta_t (INR m / INR (length c)) oc ol dl = Done (v', b', Ok tt) /\
    let p := samples c0 (placed function (length c) m) m d0 in
    vdata v' = Done (if oc then complex_to_array p else map fst p) /\
    delta v' = delta_t / (INR m / INR (length c)) /\ number_space v' = number_space v /\ domain v' = domain v /\ still_spare b b'.
Proof using HF.
  intros Hv Hc Hm Hal Hb Hs1 Hs2 E1 E2 Hde Hf. set (n := length c) in *. assert (Hn : (0 < n)%nat) by (unfold n; destruct c; [done | cbn; lia]).
  pose proof (Proof_Dft.INR_pos n Hn) as Hnp. pose proof (Proof_Dft.INR_pos m Hm) as Hmp.
  unfold interpolate_from. cbv zeta. rewrite E1, E2. assert (Hlen : len v = (2 * n)%nat) by (by rewrite (reals_len _ _ Hv), complex_to_array_length).
  rewrite Hlen. replace (Nat.max (2 * n) (2 * m)) with (2 * Nat.max n m)%nat by lia. set (M := Nat.max n m) in *.
  destruct (resize_b_prefix b v _ (2 * M) Hv) as (v1 & b1 & rest & -> & Hv1 & Hl1 & Hm1 & Hsp); [by rewrite <- Nat.negb_even, even_double | done | rewrite complex_to_array_length; fold n; lia|].
  rewrite bind_Done. set (d := complex_to_array c ++ rest) in *.
  destruct (borrowed_holds v1 d n c Hv1) as (w0 & w & Ew0 & Ew & Hw & Hdw).
  { rewrite Hl1. apply even_double. } { done. } { lia. } { unfold d. replace (2 * n)%nat with (length (complex_to_array c)) by apply complex_to_array_length. apply take_app. }
  rewrite Hl1 in Ew0, Hw. rewrite Ew0, bind_Done, Ew. clear Ew0 Ew.
  destruct (fft_holds (2 * M) (no_trade b1) w c Hw) as (w1 & bb & -> & Hw1 & _); [by apply spare_no_trade, Hsp|]. rewrite bind_Done.
  set (X := dft (-1) c) in *. assert (HX : length X = n) by apply dft_length. set (dd := delay / delta_t).
  destruct Hde as [Hl0 Hde]. fold X dd n in Hl0, Hde. set (P := phased d0 (dft (-1) c0)) in *. assert (HP : length P = n) by (unfold P; by rewrite phased_length, dft_length).
  assert (Hph : exists w2, (if feqb delay n0 then Done w1 else apply_linear_phase sc (sch_neg sch) (sch_pos sch) (delay / delta_t)%num w1) = Done w2 /\ holds (2 * M) Frequency w2 P).
  { rewrite <- Hde. change (feqb delay n0) with (Reqb delay 0). destruct (Reqb delay 0); [exists w1; done|].
    destruct (linear_phase_spec (2 * M) sc (sch_neg sch) (sch_pos sch) dd w1 X Hw1) as (w2 & E & Hw2); [lia|]. exists w2. split; [exact E | exact Hw2]. }
  destruct Hph as (w2 & -> & Hw2). rewrite bind_Done. clear w w0 w1 Hw Hw1 Hdw. assert (Hc0 : c0 <> []) by (intros ->; cbn in Hl0; lia).
  set (step := (if (n <? m)%nat then _ else _)).
  assert (Hst : exists w3 Q, step = Done (w3, Ok tt) /\ holds (2 * M) Frequency w3 Q /\ length Q = m /\ map (rscale (1 / INR m)) (dft 1 Q) = samples c0 (placed function n m) m d0).
  { unfold step. clear step. destruct (Nat.ltb_spec n m) as [Hnm|Hnm]; [|destruct (Nat.ltb_spec m n) as [Hmn|Hmn]].
    - destruct (holds_zero_pad (2 * M) Frequency w2 P m Hw2) as (w3 & left & -> & Hw3); [lia | lia|]. rewrite bind_Done.
      destruct (upsample_holds (2 * M) r addr sc (sch_mul sch) function n m w3 _ Hal Hw3) as (w4 & Q & G & -> & Hw4 & HQ & EQ & EG); [by rewrite padded_center_length; lia | done | done | intros; by apply Hf |].
      rewrite bind_Done. exists w4, Q. split; [done|]. split; [done|]. split; [done|]. apply (upsampled c0 m left d0 _ G); rewrite ?Hl0; fold n P; try done. lia.
    - destruct (downsample_holds (2 * M) r addr sc (sch_mul sch) m w2 P Hal Hw2) as (w3 & -> & Hw3); [lia|]. rewrite bind_Done.
      eexists w3, _. split; [done|]. split; [exact Hw3|]. assert (Hlr : length (reduced m P) = m) by (apply reduced_length; lia). split; [by rewrite map_length|].
      transitivity (samples c0 (band m) m d0). 2: { unfold placed. destruct function; [|done]. apply samples_ext. intros k Hk. rewrite (proj2 (Nat.ltb_ge n m)) by lia. done. }
      apply downsampled; rewrite ?Hl0; try done; [by rewrite map_length |]. intros p Hp. change (map ?ff ?l) with (ff <$> l). rewrite list_lookup_fmap.
      fold P. destruct (lookup_lt_is_Some_2 (reduced m P) p) as [x ->]; [lia|]. cbn [fmap option_fmap option_map default]. rewrite rscale_cmul, HP, !mult_INR.
      replace (INR 2 * INR m / (INR 2 * INR n)) with (INR m / INR n) by (cbn; field; lra). unfold Datatypes.id. ring.
    - assert (m = n) as -> by lia. exists w2, P. split; [done|]. split; [done|]. split; [done|].
      transitivity (samples c0 (band n) n d0). 2: { unfold placed. destruct function; [|done]. apply samples_ext. intros k Hk. rewrite Nat.ltb_irrefl. done. }
      apply downsampled; rewrite ?Hl0; try done. intros p Hp. fold P. unfold reduced. rewrite HP. pose proof (halves_le n).
      rewrite take_drop. replace (INR n / INR n) with 1 by (field; lra). ring. }
  destruct Hst as (w3 & Q & -> & Hw3 & HQ & ES). clearbody P. rewrite bind_Done.
  destruct (ifft_holds (2 * M) (no_trade b1) w3 Q Hw3) as (w4 & bb2 & -> & Hw4 & _); [rewrite HQ; by apply spare_no_trade, Hsp|]. rewrite bind_Done.
  destruct (vdata_split v1 d Hv1) as (r1 & He1 & Hn1). destruct Hw4 as (Hc4 & _ & _ & _ & Ha4 & _). unfold alloc_len, s_len in Ha4. change (s_elems (Model_Vec.data w4)) with (elems w4) in Ha4.
  destruct (vdata_split w4 _ (proj2 Hc4)) as (r4 & He4 & _).
  rewrite splice_Done by (rewrite He1, app_length; lia). rewrite bind_Done. rewrite take_0. cbn [app].
  set (l := elems w4 ++ drop (0 + length (elems w4)) (elems v1)).
  assert (Hll : length l = length (elems v1)). { unfold l. rewrite app_length, drop_length. rewrite He1, app_length in *. lia. }
  assert (Hdl : length (dft 1 Q) = m) by (by rewrite dft_length).
  set (v2 := set_valid_len (set_elems v1 l) (2 * m)).
  assert (Er : Model_Vec.resize n0 (set_elems v1 l) (2 * m) = (v2, Ok tt)).
  { unfold Model_Vec.resize. rewrite <- Nat.negb_even, even_double, andb_false_r. unfold alloc_len, s_len.
    change (s_elems (Model_Vec.data (set_elems v1 l))) with l. rewrite Hll, He1, app_length, Hl1. rewrite (proj2 (Nat.ltb_ge _ _)) by lia. done. }
  rewrite Er. clear Er.
  assert (Hv2 : vdata v2 = Done (complex_to_array (dft 1 Q))).
  { apply (vdata_intro v2 _ (r4 ++ drop (0 + length (elems w4)) (elems v1))); [|cbn; by rewrite complex_to_array_length, Hdl].
    change (elems v2) with l. unfold l. by rewrite He4 at 1; rewrite <- app_assoc. }
  destruct (scale_vdata r addr s (sch_scale sch) (n1 / nofnat m)%num v2 _ Hal Hv2) as (v3 & -> & Hv3 & Hm3). rewrite bind_Done.
  change (n1 / nofnat m)%num with (1 / INR m) in Hv3. rewrite ES in Hv3.
  set (v4 := set_delta v3 _). assert (Hv4 : vdata v4 = vdata v3) by done. rewrite Hv3 in Hv4.
  destruct Hm1 as (M1 & M2 & M3). destruct Hm3 as (N1 & N2 & N3).
  destruct oc; cbn [negb].
  - exists v4, b1. split; [done|]. cbv zeta. split; [done|]. split; [done|].
    change (number_space v4) with (number_space v3). change (domain v4) with (domain v3). rewrite N2, N3. cbn. done.
  - destruct (to_real_inplace v4 fst _ Hv4) as (v5 & -> & Hv5 & (L1 & L2 & L3)). rewrite bind_Done. exists v5, b1. split; [done|]. cbv zeta. split; [done|].
    rewrite L1, L2, L3. split; [done|]. change (number_space v4) with (number_space v3). change (domain v4) with (domain v3). rewrite N2, N3. done.
Qed.

Lemma delays_even c delay d : (delay = 0 -> d = 0) -> (delay = 0 \/ Nat.even (length c) = true) -> delays_to c delay d c d.
Proof using.
  clear. intros H0 Hde. split; [done|]. destruct (Req_dec delay 0) as [E0|E0].
  - replace (Reqb delay 0) with true by (unfold Reqb; by destruct (Req_EM_T delay 0)). by rewrite H0, phased_0.
  - replace (Reqb delay 0) with false by (unfold Reqb; by destruct (Req_EM_T delay 0)). destruct Hde as [?|Hde]; [done|]. rewrite delayed_even by (by rewrite dft_length). done.
Qed.
Theorem interpolate_core r addr s sc sch b (v : dvec R) function c m delay delta_t oc ol dl :
  vdata v = Done (complex_to_array c) -> c <> [] -> (0 < m)%nat -> aligned_all r addr -> lends b v (2 * Nat.max (length c) m) ->
  spare b (2 * fft_inplace_scratch_len (length c)) -> spare b (2 * fft_inplace_scratch_len m) ->
  (ol <? dl)%nat = (length c <? m)%nat -> (dl <? ol)%nat = (m <? length c)%nat ->
  (delay = 0 \/ Nat.even (length c) = true) -> (forall h, function = Some h -> (length c < m)%nat -> foldable h sc m) ->
  exists v' b', interpolate_from r addr s sc sch b v function m delay delta_t (INR m / INR (length c)) oc ol dl = Done (v', b', Ok tt) /\
    let p := samples c (placed function (length c) m) m (delay / delta_t) in
    vdata v' = Done (if oc then complex_to_array p else map fst p) /\
    delta v' = delta_t / (INR m / INR (length c)) /\ number_space v' = number_space v /\ domain v' = domain v /\ still_spare b b'.
Proof using HF.
  intros H1 H2 H3 H4 H5 H6 H7 H8 H9 Hde Hf. apply (interpolate_core' r addr s sc sch b v function c m delay delta_t oc ol dl c (delay / delta_t)); try done.
  apply delays_even; [|done]. intros ->. unfold Rdiv. ring.
Qed.
End frequency.

(** ** The methods *)
Section methods.
Context `{F : Fft R} (HF : computes_dft).
Local Open Scope R_scope.

Theorem interpolate_cplx' r addr s sc sch b (v : dvec R) function c m delay c0 d0 :
  cplx v c -> c <> [] -> (0 < m)%nat -> aligned_all r addr -> lends b v (2 * Nat.max (length c) m) ->
  spare b (2 * fft_inplace_scratch_len (length c)) -> spare b (2 * fft_inplace_scratch_len m) ->
  delays_to c delay (delay / delta v) c0 d0 -> (forall h, function = Some h -> (length c < m)%nat -> foldable h sc m) ->
  exists v' b', interpolate r addr s sc sch b v function m delay = Done (v', b', Ok tt) /\
    cplx v' (samples c0 (placed function (length c) m) m d0) /\
    delta v' = delta v / (INR m / INR (length c)) /\ number_space v' = number_space v /\ domain v' = domain v.
Proof using HF.
  intros Hv Hc Hm Hal Hb Hs1 Hs2 Hde Hf. rewrite interpolate_from_spec. rewrite (proj1 Hv).
  replace (match function with Some h => negb (r_symmetric h) && negb true | None => false end) with false by (destruct function; by rewrite ?andb_false_r).
  cbn [negb]. rewrite bind_Done, (points_cplx v c Hv). rewrite (reals_len _ _ (proj2 Hv)), complex_to_array_length.
  destruct (interpolate_core' HF r addr s sc sch b v function c m delay (delta v) true (2 * length c) (2 * m) c0 d0) as (v' & b' & E & K1 & K2 & K3 & K4 & _); try done.
  { exact (proj2 Hv). }
  { destruct (Nat.ltb_spec (2 * length c) (2 * m)), (Nat.ltb_spec (length c) m); lia || done. }
  { destruct (Nat.ltb_spec (2 * m) (2 * length c)), (Nat.ltb_spec m (length c)); lia || done. }
  exists v', b'. split; [exact E|]. split; [|done]. split; [|done]. unfold is_complex. rewrite K3. exact (proj1 Hv).
Qed.

Theorem interpolate_cplx r addr s sc sch b (v : dvec R) function c m delay :
  cplx v c -> c <> [] -> (0 < m)%nat -> aligned_all r addr -> lends b v (2 * Nat.max (length c) m) ->
  spare b (2 * fft_inplace_scratch_len (length c)) -> spare b (2 * fft_inplace_scratch_len m) ->
  (delay = 0 \/ Nat.even (length c) = true) -> (forall h, function = Some h -> (length c < m)%nat -> foldable h sc m) ->
  exists v' b', interpolate r addr s sc sch b v function m delay = Done (v', b', Ok tt) /\
    cplx v' (samples c (placed function (length c) m) m (delay / delta v)) /\
    delta v' = delta v / (INR m / INR (length c)) /\ number_space v' = number_space v /\ domain v' = domain v.
Proof using HF.
  intros Hv Hc Hm Hal Hb Hs1 Hs2 Hde Hf. rewrite interpolate_from_spec. rewrite (proj1 Hv).
  replace (match function with Some h => negb (r_symmetric h) && negb true | None => false end) with false by (destruct function; by rewrite ?andb_false_r).
  cbn [negb]. rewrite bind_Done, (points_cplx v c Hv). rewrite (reals_len _ _ (proj2 Hv)), complex_to_array_length.
  destruct (interpolate_core HF r addr s sc sch b v function c m delay (delta v) true (2 * length c) (2 * m)) as (v' & b' & E & K1 & K2 & K3 & K4 & _); try done.
  { exact (proj2 Hv). }
  { destruct (Nat.ltb_spec (2 * length c) (2 * m)), (Nat.ltb_spec (length c) m); lia || done. }
  { destruct (Nat.ltb_spec (2 * m) (2 * length c)), (Nat.ltb_spec m (length c)); lia || done. }
  exists v', b'. split; [exact E|]. split; [|done]. split; [|done]. unfold is_complex. rewrite K3. exact (proj1 Hv).
Qed.

Theorem interpolate_reals r addr s sc sch b (v : dvec R) function l m delay :
  reals v l -> l <> [] -> (0 < m)%nat -> aligned_all r addr -> lends b v (2 * Nat.max (length l) m) ->
  spare b (2 * fft_inplace_scratch_len (length l)) -> spare b (2 * fft_inplace_scratch_len m) ->
  (delay = 0 \/ Nat.even (length l) = true) -> (forall h, function = Some h -> r_symmetric h = true /\ ((length l < m)%nat -> foldable h sc m)) ->
  exists v' b', interpolate r addr s sc sch b v function m delay = Done (v', b', Ok tt) /\
    reals v' (map fst (samples (map of_real l) (placed function (length l) m) m (delay / delta v))) /\
    delta v' = delta v / (INR m / INR (length l)) /\ number_space v' = number_space v /\ domain v' = domain v.
Proof using HF.
  intros Hv Hl Hm Hal Hb Hs1 Hs2 Hde Hf. rewrite interpolate_from_spec. rewrite (proj1 Hv). cbn [negb].
  replace (match function with Some h => negb (r_symmetric h) && true | None => false end) with false.
  2: { destruct function as [h|]; [|done]. by rewrite (proj1 (Hf h eq_refl)). }
  assert (Hn : (0 < length l)%nat) by (destruct l; [done | cbn; lia]).
  destruct (zero_interleave_b_real n0 b v l 2) as (v1 & b1 & E1 & (R1 & R2 & R3) & Hv1); try done; try lia.
  { destruct b; try done. cbn in *. lia. }
  rewrite E1, bind_Done. pose proof (zero_interleave_b_keeps _ _ _ _ _ E1) as Hk. apply zero_interleave_b_spare in E1 as Hsp.
  rewrite interleaved_pairs in Hv1. change (map (fun x => (x, n0)) l) with (map of_real l) in Hv1. rewrite (points_reals v l Hv), (reals_len _ _ (proj2 Hv)).
  assert (Hml : length (map of_real l) = length l) by apply map_length. rewrite <- Hml.
  destruct (interpolate_core HF r addr s sc sch b1 v1 function (map of_real l) m delay (delta v) false (length l) m) as (v' & b' & E & K1 & K2 & K3 & K4 & _); rewrite ?Hml; try done.
  { exact (proj2 Hv1). } { by destruct l. } { by apply Hk. } { by apply Hsp. } { by apply Hsp. } { intros h Eh. by apply (Hf h Eh). }
  rewrite Hml in E. exists v', b'. split; [exact E|]. rewrite Hml in *. split; [|by rewrite K3, K4]. split; [|done]. unfold is_complex. rewrite K3, R3. exact (proj1 Hv).
Qed.
End methods.
