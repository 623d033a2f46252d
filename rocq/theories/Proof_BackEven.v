(** Interpolation to more points and back for a real vector with an even number of points. *)
From Verif Require Import Proof_Base Proof_Vec Proof_Frame Proof_Window Proof_Dft Proof_Trig Proof_Fft Proof_FftR Proof_SfftR Proof_Corr Proof_Exact Proof_Interpolate Proof_Interpolate2.
From Verif Require Import Spec_Interpolate NumsR.
From stdpp Require Import list_numbers.
Local Open Scope R_scope.
Local Notation C := (R * R)%type.
Local Notation sel l k := (default ((0, 0) : C) (l !! k)).

Lemma sel_imap (g : nat -> C -> C) (x : list C) k : (k < length x)%nat -> sel (imap g x) k = g k (sel x k).
Proof. intros Hk. rewrite list_lookup_imap. destruct (lookup_lt_is_Some_2 x k Hk) as [y ->]. done. Qed.
Lemma sel_map (g : C -> C) (x : list C) k : (k < length x)%nat -> sel (map g x) k = g (sel x k).
Proof. intros Hk. change (map g x) with (g <$> x). rewrite list_lookup_fmap. destruct (lookup_lt_is_Some_2 x k Hk) as [y ->]. done. Qed.

Lemma real_part_spectrum s (z : list C) k : spectrum s (map of_real (map fst z)) k = cmul (1 / 2, 0) (cadd (spectrum s z k) (conjugated (spectrum s z (- k)))).
Proof.
  unfold spectrum. rewrite !map_length. set (m := length z). rewrite conj_csm, <- csm_add, <- csm_mul_l. apply csm_ext. intros j Hj.
  rewrite !at_nat by (rewrite ?map_length; done). rewrite conj_mul, conj_turn. replace (- (s * (Z.of_nat j * - k)))%Z with (s * (Z.of_nat j * k))%Z by lia.
  rewrite map_map. change (map ?ff ?ll) with (ff <$> ll). rewrite list_lookup_fmap. destruct (lookup_lt_is_Some_2 z j Hj) as [[x y] ->].
  cbn [fmap option_fmap option_map default]. unfold Datatypes.id, of_real, conjugated, cmul, cadd. destruct (turn m _) as [t u]. cbn. f_equal; field.
Qed.

Lemma turn_half n h i : (0 < h)%nat -> n = (2 * h)%nat -> turn n (Z.of_nat h * Z.of_nat i) = ((-1) ^ i, 0).
Proof.
  intros Hh ->. induction i as [|i IH].
  - rewrite Z.mul_0_r. apply turn_0.
  - replace (Z.of_nat h * Z.of_nat (Datatypes.S i))%Z with (Z.of_nat h * Z.of_nat i + Z.of_nat h)%Z by lia. rewrite turn_add, IH.
    assert (E : turn (2 * h) (Z.of_nat h) = (-1, 0)).
    { rewrite turn_circle. replace (2 * PI * IZR (Z.of_nat h) / INR (2 * h)) with PI; [unfold circle; by rewrite cos_PI, sin_PI|].
      rewrite <- INR_IZR_INZ, mult_INR. change (INR 2) with 2. assert (0 < INR h) by (by apply Proof_Dft.INR_pos). field. lra. }
    rewrite E. unfold cmul. cbn. f_equal; ring.
Qed.
Lemma turn_half_neg n h i : (0 < h)%nat -> n = (2 * h)%nat -> turn n (- (Z.of_nat i * Z.of_nat h)) = ((-1) ^ i, 0).
Proof.
  intros Hh Hn. rewrite <- (turn_half n h i Hh Hn). rewrite <- (turn_period n (- (Z.of_nat i * Z.of_nat h)) (Z.of_nat i)) by lia. f_equal. subst n. lia.
Qed.

Lemma rseries_S n f : series 0 Rplus (Datatypes.S n) f = series 0 Rplus n f + f n.
Proof. unfold series. by rewrite seq_S, map_app, foldl_app. Qed.
(** The bin at half of the sampling rate *)
Lemma nyquist_bin l h : (0 < h)%nat -> length l = (2 * h)%nat -> sel (dft (-1) (cpx l)) h = (alternating l, 0).
Proof.
  intros Hh Hl. rewrite dft_lookup by (rewrite cpx_length; lia). cbn [default]. unfold Datatypes.id. rewrite cpx_length. unfold alternating. rewrite Hl.
  assert (E : forall m, (m <= 2 * h)%nat -> csm m (fun j => cmul (sel (cpx l) j) (turn (2 * h) (-1 * (Z.of_nat j * Z.of_nat h)))) =
    (series 0 Rplus m (fun k => (-1) ^ k * default 0 (l !! k)), 0)).
  { induction m as [|m IH]; intros Hm; [done|]. rewrite csm_S, IH by lia. replace (-1 * (Z.of_nat m * Z.of_nat h))%Z with (- (Z.of_nat m * Z.of_nat h))%Z by lia.
    rewrite (turn_half_neg _ h) by done. unfold cpx. change (map ?ff ?ll) with (ff <$> ll). rewrite list_lookup_fmap. destruct (lookup_lt_is_Some_2 l m) as [x Ex]; [lia|].
    rewrite rseries_S. rewrite Ex. cbn. unfold cmul, cadd. cbn. f_equal; ring. }
  apply E. lia.
Qed.

Lemma reduced_sel m (X : list C) p : (m <= length X)%nat -> (p < m)%nat -> sel (reduced m X) p = sel X (if (p <? m - m / 2)%nat then p else (p + (length X - m)))%nat.
Proof.
  intros Hm Hp. pose proof (halves_le m). unfold reduced. destruct (Nat.ltb_spec p (m - m / 2)).
  - rewrite lookup_app_l by (rewrite take_length; lia). by rewrite lookup_take.
  - rewrite lookup_app_r by (rewrite take_length; lia). rewrite lookup_drop, take_length. do 2 f_equal. lia.
Qed.

Lemma both_halves (a b : R) (x y : C) : 0 < a -> 0 < b -> conjugated y = x -> cmul (cmul (1 / 2, 0) (cadd (rscale (b / a) x) (conjugated (rscale (b / a) y)))) (a / b, 0) = x.
Proof. intros Ha Hb <-. destruct y as [u t]. unfold cmul, rscale, cadd, conjugated. cbn. f_equal; field; lra. Qed.
Lemma one_half (a b : R) (x : C) : 0 < a -> 0 < b -> cmul (cmul (1 / 2, 0) (cadd (rscale (b / a) x) (conjugated (0, 0)))) (a / b, 0) = rscale (1 / 2) x.
Proof. intros Ha Hb. destruct x as [u t]. unfold cmul, rscale, cadd, conjugated. cbn. f_equal; field; lra. Qed.

Section even.
Context (l : list R) (h m : nat) (Hh : (0 < h)%nat) (Hl : length l = (2 * h)%nat) (Hm : (2 * h < m)%nat).
Let n := (2 * h)%nat.
Let X := dft (-1) (cpx l).
Let Z1 := dft (-1) (samples (cpx l) (band m) m 0).
Lemma half_n : (n / 2)%nat = h.
Proof using Hh Hl Hm. unfold n. symmetry. apply (Nat.div_unique _ 2 h 0); lia. Qed.
Lemma X_len : length X = n. Proof using Hh Hl Hm. unfold X. by rewrite dft_length, cpx_length. Qed.
Lemma Z_len : length Z1 = m. Proof using Hh Hl Hm. unfold Z1. by rewrite dft_length, samples_length. Qed.
Lemma Z_eq : Z1 = map (rscale (INR m / INR n)) (padded (0, 0) Center 0 m X).
Proof using Hh Hl Hm.
  unfold Z1. assert (length (cpx l) = n) as E by (by rewrite cpx_length). rewrite samples_spectrum; [by rewrite E | | rewrite E; unfold n; lia].
  intros Ec. rewrite Ec in E. cbn in E. unfold n in E. lia.
Qed.
Lemma padded_len : length (padded (0, 0) Center 0 m X) = m.
Proof using Hh Hl Hm. rewrite padded_center_length; [done | rewrite X_len; unfold n; lia]. Qed.
Lemma Z_low p : (p < h)%nat -> sel Z1 p = rscale (INR m / INR n) (sel X p).
Proof using Hh Hl Hm.
  intros Hp. rewrite Z_eq, sel_map by (rewrite padded_len; lia). f_equal. unfold padded. rewrite X_len, half_n.
  rewrite lookup_app_l by (rewrite take_length, X_len; unfold n; lia). rewrite lookup_take by (unfold n; lia). done.
Qed.
Lemma Z_high p : (h <= p < n)%nat -> sel Z1 (p + (m - n))%nat = rscale (INR m / INR n) (sel X p).
Proof using Hh Hl Hm.
  intros Hp. unfold n in Hp. rewrite Z_eq, sel_map by (rewrite padded_len; unfold n; lia). f_equal. unfold padded. rewrite X_len, half_n. unfold n.
  assert (Ht : length (take (2 * h - h) X) = h) by (rewrite take_length, X_len; unfold n; lia).
  rewrite lookup_app_r by (rewrite Ht; lia). rewrite Ht. unfold zeros. rewrite lookup_app_r by (rewrite replicate_length; lia). rewrite replicate_length, lookup_drop. do 2 f_equal. lia.
Qed.
Lemma Z_gap : sel Z1 h = (0, 0).
Proof using Hh Hl Hm.
  rewrite Z_eq, sel_map by (rewrite padded_len; lia). unfold padded. rewrite X_len, half_n. unfold n.
  assert (Ht : length (take (2 * h - h) X) = h) by (rewrite take_length, X_len; unfold n; lia).
  rewrite lookup_app_r by (rewrite Ht; lia). rewrite Ht. unfold zeros. rewrite lookup_app_l by (rewrite replicate_length; lia). rewrite lookup_replicate_2 by lia.
  cbn. unfold rscale. cbn. f_equal; ring.
Qed.
Lemma X_conj p q : (p < n)%nat -> (q < n)%nat -> ((p + q) mod n = 0)%nat -> conjugated (sel X q) = sel X p.
Proof using Hh Hl Hm.
  intros Hp Hq E. unfold X. rewrite !dft_at by (rewrite cpx_length, Hl; done). cbn [default]. unfold Datatypes.id. rewrite conj_spectrum.
  apply Nat.mod_divides in E as [j Ej]; [|lia]. assert (En : length (cpx l) = n) by (by rewrite cpx_length).
  rewrite <- (spectrum_period (-1) (cpx l) (- Z.of_nat q) (Z.of_nat j)) by lia. f_equal. rewrite En. lia.
Qed.
Lemma Z_spectrum p : (p < m)%nat -> sel Z1 p = spectrum (-1) (samples (cpx l) (band m) m 0) (Z.of_nat p).
Proof using Hh Hl Hm. intros Hp. unfold Z1. rewrite dft_at by (by rewrite samples_length). done. Qed.

Let w := map of_real (map fst (samples (cpx l) (band m) m 0)).
Lemma w_len : length w = m. Proof using Hh Hl Hm. unfold w. by rewrite !map_length, samples_length. Qed.
Lemma w_bin p q : (p < m)%nat -> (q < m)%nat -> ((p + q) mod m = 0)%nat -> sel (dft (-1) w) p = cmul (1 / 2, 0) (cadd (sel Z1 p) (conjugated (sel Z1 q))).
Proof using Hh Hl Hm.
  intros Hp Hq E. rewrite dft_at by (by rewrite w_len). cbn [default]. unfold Datatypes.id. unfold w at 1. rewrite real_part_spectrum, !Z_spectrum by done. do 3 f_equal.
  apply Nat.mod_divides in E as [j Ej]; [|lia]. rewrite <- (spectrum_period (-1) _ (- Z.of_nat p) (Z.of_nat j)) by (rewrite samples_length; lia). f_equal. rewrite samples_length. lia.
Qed.
Let halved := imap (fun p x => if (p =? h)%nat then rscale (1 / 2) x else x) X.
Lemma halved_bins p : (p < n)%nat -> sel halved p = cmul (sel (reduced n (dft (-1) w)) p) (INR n / INR m, 0).
Proof using Hh Hl Hm.
  intros Hp. assert (Hpn : (p < 2 * h)%nat) by (exact Hp). assert (0 < INR n) by (apply Proof_Dft.INR_pos; unfold n; lia). assert (0 < INR m) by (apply Proof_Dft.INR_pos; lia).
  rewrite (reduced_sel n (dft (-1) w) p); [| by rewrite dft_length, w_len; apply Nat.lt_le_incl | exact Hp]. rewrite dft_length, w_len, half_n. unfold halved. rewrite sel_imap by (by rewrite X_len).
  assert (Hhalf : forall x y : C, conjugated y = x -> cmul (cmul (1 / 2, 0) (cadd (rscale (INR m / INR n) x) (conjugated (rscale (INR m / INR n) y)))) (INR n / INR m, 0) = x) by (intros; by apply both_halves).
  replace (n - h)%nat with h by (unfold n; lia).
  destruct (Nat.eqb_spec p h) as [->|Hne].
  - destruct (Nat.ltb_spec h h); [lia|]. rewrite (w_bin _ h) by (unfold n; try lia; replace (h + (m - 2 * h) + h)%nat with m by lia; apply Nat.mod_same; lia).
    rewrite Z_high by (unfold n; lia). rewrite Z_gap. symmetry. by apply one_half.
  - destruct (Nat.ltb_spec p h) as [K|K].
    + destruct (decide (p = 0%nat)) as [->|Hp0].
      * rewrite (w_bin _ 0) by (try lia; apply Nat.mod_0_l; lia). rewrite !Z_low by lia. symmetry. apply Hhalf. apply X_conj; try lia. apply Nat.mod_0_l. lia.
      * rewrite (w_bin _ ((n - p) + (m - n))%nat) by (unfold n; try lia; replace (p + (2 * h - p + (m - 2 * h)))%nat with m by lia; apply Nat.mod_same; lia).
        rewrite Z_low by lia. rewrite Z_high by (unfold n; lia). symmetry. apply Hhalf. apply X_conj; unfold n; try lia. replace (p + (2 * h - p))%nat with (2 * h)%nat by lia. apply Nat.mod_same. lia.
    + rewrite (w_bin _ (n - p)%nat) by (unfold n; try lia; replace (p + (m - 2 * h) + (2 * h - p))%nat with m by lia; apply Nat.mod_same; lia).
      rewrite Z_high by lia. rewrite Z_low by (unfold n; lia). symmetry. apply Hhalf. apply X_conj; unfold n; try lia. replace (p + (2 * h - p))%nat with (2 * h)%nat by lia. apply Nat.mod_same. lia.
Qed.
Theorem there_and_back_even : map fst (samples w (band n) n 0) = imap (fun i x => x - (-1) ^ i * (alternating l / INR n) / 2) l.
Proof using Hh Hl Hm.
  assert (Hn0 : 0 < INR n) by (apply Proof_Dft.INR_pos; unfold n; lia).
  assert (HQ : length halved = n) by (unfold halved; by rewrite imap_length, X_len).
  rewrite <- (downsampled w n 0 halved); [| | unfold n; lia | rewrite w_len; unfold n; lia | done |].
  2: { intros E. pose proof w_len as Ew. rewrite E in Ew. cbn in Ew. lia. }
  2: { intros p Hp. rewrite phased_0, w_len. by apply halved_bins. }
  apply list_eq. intros i. rewrite list_lookup_imap. destruct (decide (i < n)%nat) as [Hi|Hi].
  2: { rewrite !lookup_ge_None_2; [done | rewrite Hl; unfold n in Hi; lia | rewrite !map_length, dft_length, HQ; lia]. }
  rewrite map_map. change (map ?ff ?ll) with (ff <$> ll). rewrite list_lookup_fmap, dft_lookup by lia. rewrite HQ. destruct (lookup_lt_is_Some_2 l i) as [x Ex]; [rewrite Hl; exact Hi|]. rewrite Ex.
  cbn [fmap option_fmap option_map]. f_equal.
  assert (E : csm n (fun j => cmul (sel halved j) (turn n (1 * (Z.of_nat j * Z.of_nat i)))) =
    cadd (csm n (fun j => cmul (sel X j) (turn n (1 * (Z.of_nat j * Z.of_nat i))))) (rscale (- (1 / 2)) (cmul (sel X h) (turn n (1 * (Z.of_nat h * Z.of_nat i)))))).
  { assert (Hs : csm n (fun j => if (j =? h)%nat then rscale (- (1 / 2)) (cmul (sel X j) (turn n (1 * (Z.of_nat j * Z.of_nat i)))) else (0, 0)) =
      rscale (- (1 / 2)) (cmul (sel X h) (turn n (1 * (Z.of_nat h * Z.of_nat i))))).
    { rewrite (csm_single n h); [by rewrite Nat.eqb_refl | unfold n; lia |]. intros j Hj Hne. by destruct (Nat.eqb_spec j h). }
    rewrite <- Hs, <- csm_add. apply csm_ext. intros j Hj. unfold halved. rewrite sel_imap by (by rewrite X_len).
    destruct (j =? h)%nat; generalize (sel X j), (turn n (1 * (Z.of_nat j * Z.of_nat i))); intros [a b] [c d]; unfold cmul, cadd, rscale; cbn; f_equal; field. }
  rewrite E. unfold X at 2. rewrite nyquist_bin by done. replace (1 * (Z.of_nat h * Z.of_nat i))%Z with (Z.of_nat h * Z.of_nat i)%Z by lia. rewrite (turn_half n h i Hh eq_refl).
  assert (Eb : csm n (fun j => cmul (sel X j) (turn n (1 * (Z.of_nat j * Z.of_nat i)))) = (INR n * x, 0)).
  { assert (Hli : dft 1 (dft (-1) (cpx l)) !! i = map (fun x => cmul (INR (length (cpx l)), 0) x) (cpx l) !! i).
    { rewrite (dft_dft (-1) 1); [reflexivity | by right | reflexivity]. }
    rewrite dft_lookup in Hli by (rewrite dft_length, cpx_length, Hl; exact Hi). rewrite dft_length, cpx_length, Hl in Hli. fold n in Hli. fold X in Hli.
    change (map ?ff ?ll) with (ff <$> ll) in Hli. rewrite list_lookup_fmap in Hli. unfold cpx in Hli. change (map ?ff l) with (ff <$> l) in Hli. rewrite list_lookup_fmap, Ex in Hli.
    cbn [fmap option_fmap option_map] in Hli. injection Hli as Hli. rewrite Hli. generalize (INR n). intros N. unfold cmul. cbn. f_equal; ring. }
  rewrite Eb. clear - Hn0. revert Hn0. generalize (INR n), ((-1) ^ i), (alternating l). intros N t A HN. unfold rscale, cmul, cadd. cbn. field. lra.
Qed.
End even.

Section back.
Context `{F : Fft R} (HF : computes_dft).
Theorem interpft_back_even r addr s sc sch b (v : dvec R) l m r2 addr2 s2 sc2 sch2 b2 : reals v l -> l <> [] -> Nat.even (length l) = true -> (length l < m)%nat -> aligned_all r addr -> aligned_all r2 addr2 ->
  lends b v (2 * m) -> spare b (2 * fft_inplace_scratch_len (length l)) -> spare b (2 * fft_inplace_scratch_len m) ->
  (forall w, lends b2 w (2 * m)) -> spare b2 (2 * fft_inplace_scratch_len (length l)) -> spare b2 (2 * fft_inplace_scratch_len m) ->
  exists v1 b1 v' b', interpft r addr s sc sch b v m = Done (v1, b1) /\ points v1 = m /\ interpft r2 addr2 s2 sc2 sch2 b2 v1 (length l) = Done (v', b') /\
    reals v' (imap (fun i x => x - (-1) ^ i * (alternating l / INR (length l)) / 2) l) /\ same_meta v v'.
Proof using HF.
  intros Hv Hc He Hm Hal Hal2 Hb H1 H2 Hb2 H3 H4. assert (Hn : (0 < length l)%nat) by (destruct l; [done | cbn; lia]). pose proof (Proof_Dft.INR_pos _ Hn). assert (0 < INR m) by (apply Proof_Dft.INR_pos; lia).
  destruct (interpft_reals HF r addr s sc sch b v l m) as (v1 & b1 & E & K1 & K2 & K3 & K4); try done; [lia | by rewrite Nat.max_r by lia|].
  assert (Hl : length (map fst (samples (map of_real l) (band m) m 0)) = m) by (rewrite map_length; apply samples_length).
  destruct (interpft_reals HF r2 addr2 s2 sc2 sch2 b2 v1 _ (length l) K1) as (v' & b' & E' & J1 & J2 & J3 & J4); rewrite ?Hl; try done.
  { intros Ec. rewrite Ec in Hl. cbn in Hl. lia. } { rewrite Nat.max_l by lia. apply Hb2. }
  exists v1, b1, v', b'. split; [done|]. split; [by rewrite (points_reals _ _ K1)|]. split; [done|].
  apply Nat.even_spec in He as [h Eh]. split.
  - rewrite (of_real_cpx l) in J1. rewrite Eh in J1. rewrite (there_and_back_even l h m) in J1 by (done || lia). rewrite Eh. exact J1.
  - unfold same_meta. rewrite J2, J3, J4, K2, K3, K4, Hl. split; [field; lra | done].
Qed.
End back.
