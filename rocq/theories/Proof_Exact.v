(** Which signals the trigonometric polynomial reproduces; there and back. *)
From Verif Require Import Spec_Interpolate Proof_Dft Proof_Fft Proof_FftR Proof_Trig Proof_SfftR Proof_Corr.
From stdpp Require Import list_numbers.
Local Open Scope R_scope.
Local Notation C := (R * R)%type.
Local Notation sel l k := (default ((0, 0) : C) (l !! k)).

Lemma turn_frequency n k z : (0 < n)%nat -> turn n (frequency n k * z) = turn n (Z.of_nat k * z).
Proof.
  intros Hn. unfold frequency. destruct (k <? n - n / 2)%nat; [done|]. rewrite <- (turn_period n ((Z.of_nat k - Z.of_nat n) * z) z Hn). f_equal. lia.
Qed.
Lemma sampled_length s n : length (sampled s n) = n.
Proof. unfold sampled. by rewrite map_length, seq_length. Qed.
Lemma sampled_harmonics a : a <> [] -> sampled (harmonics a (fun _ => 1)) (length a) = dft 1 a.
Proof.
  intros Ha. assert (Hn : (0 < length a)%nat) by (destruct a; [done | cbn; lia]). apply list_eq. intros q. destruct (decide (q < length a)%nat) as [Hq|Hq].
  2: { rewrite !lookup_ge_None_2; [done | rewrite dft_length; lia | rewrite sampled_length; lia]. }
  rewrite dft_lookup by done. unfold sampled. change (map ?g ?l) with (g <$> l). rewrite list_lookup_fmap, lookup_seq_lt by done. cbn [fmap option_fmap option_map]. f_equal.
  unfold harmonics. change (series (0, 0) complex_sum) with csm. apply csm_ext. intros k Hk. change complex_product with (@cmul R _).
  assert (E : turn (length a) (frequency (length a) k * Z.of_nat q) = circle (2 * PI * IZR (frequency (length a) k) * INR (0 + q) / INR (length a))).
  { rewrite turn_circle. f_equal. rewrite mult_IZR, <- INR_IZR_INZ. cbn [Nat.add]. unfold Rdiv. ring. }
  rewrite <- E, turn_frequency by done. replace (1 * (Z.of_nat k * Z.of_nat q))%Z with (Z.of_nat k * Z.of_nat q)%Z by lia. ring.
Qed.

(** A signal which [n] points can represent is exactly what the polynomial through its points gives at any time. *)
Theorem polynomial_exact a g t : a <> [] -> polynomial (sampled (harmonics a (fun _ => 1)) (length a)) g t = harmonics a g t.
Proof.
  intros Ha. assert (Hn : (0 < length a)%nat) by (destruct a; [done | cbn; lia]). pose proof (Proof_Dft.INR_pos _ Hn) as Hp. rewrite sampled_harmonics by done.
  unfold polynomial, harmonics. cbv zeta. rewrite dft_length, (dft_dft 1 (-1)) by (done || by left). set (n := length a) in *.
  change (series (0, 0) complex_sum) with csm. change complex_product with (@cmul R _). rewrite <- csm_mul_l. apply csm_ext. intros k Hk.
  change (map ?ff ?l) with (ff <$> l). rewrite list_lookup_fmap. destruct (lookup_lt_is_Some_2 a k Hk) as [x ->]. cbn [fmap option_fmap option_map default]. unfold Datatypes.id.
  set (z := cmul _ (circle _)).
  transitivity (cmul (cmul (1 / INR n, 0) (INR n, 0)) (cmul x z)); [ring|]. replace (cmul (1 / INR n, 0) (INR n, 0)) with ((1, 0) : C) by (unfold cmul; cbn; f_equal; field; lra). ring.
Qed.

Theorem samples_same c : c <> [] -> samples c (band (length c)) (length c) 0 = c.
Proof.
  intros Hc. rewrite (samples_ext c _ (fun _ => 1)) by (intros; by apply band_up). assert (Hn : (0 < length c)%nat) by (destruct c; [done | cbn; lia]).
  pose proof (Proof_Dft.INR_pos _ Hn) as Hp.
  apply list_eq. intros i. destruct (decide (i < length c)%nat) as [Hi|Hi]; [|rewrite !lookup_ge_None_2; [done | lia | rewrite samples_length; lia]].
  rewrite samples_lookup by done. rewrite <- polynomial_through by done. do 2 f_equal. field. lra.
Qed.
Theorem samples_kept c K i : (0 < K)%nat -> (i < length c)%nat -> samples c (band (length c * K)) (length c * K) 0 !! (i * K)%nat = c !! i.
Proof.
  intros HK Hi. rewrite samples_lookup by nia. rewrite <- polynomial_through by done. f_equal. transitivity (polynomial c (fun _ => 1) (INR (i * K) * INR (length c) / INR (length c * K) + 0)).
  - apply polynomial_ext. intros k Hk. apply band_up; [done | nia].
  - f_equal. rewrite !mult_INR. pose proof (Proof_Dft.INR_pos K HK). assert (0 < INR (length c)) by (apply Proof_Dft.INR_pos; lia). field. lra.
Qed.

(** The spectrum of the samples *)
Lemma samples_spectrum c m : c <> [] -> (length c <= m)%nat ->
  dft (-1) (samples c (band m) m 0) = map (rscale (INR m / INR (length c))) (padded (0, 0) Center 0 m (dft (-1) c)).
Proof.
  intros Hc Hm. assert (Hn : (0 < length c)%nat) by (destruct c; [done | cbn; lia]). set (Q := map _ _).
  assert (HQ : length Q = m) by (unfold Q; rewrite map_length, padded_center_length; [done | by rewrite dft_length]).
  rewrite <- (upsampled c m 0 0 (band m) (fun _ => 1) Q Hc Hm HQ).
  - rewrite dft_scale, (dft_dft 1 (-1)) by (done || by left). rewrite HQ. apply scale_back. lia.
  - intros p Hp. rewrite phased_0. unfold Q. change (map ?ff ?l) with (ff <$> l). rewrite list_lookup_fmap.
    destruct (lookup_lt_is_Some_2 (padded (0, 0) Center 0 m (dft (-1) c)) p) as [x ->]. { rewrite padded_center_length; [done | by rewrite dft_length]. }
    cbn [fmap option_fmap option_map default]. unfold Datatypes.id. rewrite Proof_Trig.rscale_cmul. ring.
  - intros k Hk. by rewrite band_up.
Qed.
Theorem there_and_back c m : c <> [] -> (length c <= m)%nat -> samples (samples c (band m) m 0) (band (length c)) (length c) 0 = c.
Proof.
  intros Hc Hm. assert (Hn : (0 < length c)%nat) by (destruct c; [done | cbn; lia]). set (n := length c) in *. set (c1 := samples c (band m) m 0).
  assert (Hl1 : length c1 = m) by apply samples_length. pose proof (Proof_Dft.INR_pos n Hn). assert (0 < INR m) by (apply Proof_Dft.INR_pos; lia).
  assert (Hc1 : c1 <> []) by (intros E; rewrite E in Hl1; cbn in Hl1; lia).
  rewrite <- (downsampled c1 n 0 (dft (-1) c)); [|done|done|lia|by rewrite dft_length|].
  - rewrite (dft_dft (-1) 1) by (done || by right). fold n. apply scale_back. lia.
  - intros p Hp. rewrite phased_0, Hl1. unfold c1. rewrite samples_spectrum by done. fold n. set (X := dft (-1) c). assert (HX : length X = n) by apply dft_length.
    unfold reduced. rewrite map_length, padded_center_length by lia. pose proof (halves_le n).
    unfold padded. rewrite HX. rewrite !map_app.
    assert (Ha : length (map (rscale (INR m / INR n)) (take (n - n / 2) X)) = (n - n / 2)%nat) by (rewrite map_length, take_length; lia).
    rewrite take_app_alt by done. rewrite app_assoc, drop_app_alt.
    2: { rewrite app_length, Ha, map_length. unfold zeros. rewrite replicate_length. lia. }
    rewrite <- map_app, take_drop. change (map ?ff ?l) with (ff <$> l). rewrite list_lookup_fmap. destruct (lookup_lt_is_Some_2 X p) as [x ->]; [lia|].
    cbn [fmap option_fmap option_map default]. unfold Datatypes.id. destruct x as [x y]. unfold rscale, cmul. cbn. f_equal; field; lra.
Qed.

(** The polynomial through an odd number of real points is real. *)
Lemma of_real_cpx l : map of_real l = cpx l. Proof. done. Qed.
Lemma conj_circle x : conjugated (circle x) = circle (- x).
Proof. unfold conjugated, circle. cbn. by rewrite cos_neg, sin_neg. Qed.
Lemma conj_mul (x y : C) : conjugated (cmul x y) = cmul (conjugated x) (conjugated y).
Proof. destruct x, y. unfold conjugated, cmul. cbn. f_equal; ring. Qed.
Lemma conj_csm n f : conjugated (csm n f) = csm n (fun i => conjugated (f i)).
Proof.
  induction n; [unfold conjugated; cbn; f_equal; ring|]. rewrite !csm_S, <- IHn. destruct (csm n f), (f n). unfold conjugated, cadd. cbn. f_equal; ring.
Qed.
Lemma frequency_flip n k : Nat.odd n = true -> (0 < k)%nat -> (k < n)%nat -> frequency n (n - k) = (- frequency n k)%Z.
Proof.
  intros Ho Hk Hn. apply Nat.odd_spec in Ho as [j Hj]. assert (Eh : (n / 2)%nat = j) by (symmetry; apply (Nat.div_unique n 2 j 1); lia).
  unfold frequency. rewrite Eh. destruct (Nat.ltb_spec (n - k) (n - j)), (Nat.ltb_spec k (n - j)); lia.
Qed.
Lemma polynomial_real l (g : Z -> R) t : Nat.odd (length l) = true -> (forall f, g (- f)%Z = g f) -> conjugated (polynomial (map of_real l) g t) = polynomial (map of_real l) g t.
Proof.
  intros Ho Hg. rewrite of_real_cpx. unfold polynomial. cbv zeta. rewrite cpx_length. set (n := length l) in *.
  assert (Hn : (0 < n)%nat) by (destruct n; [done | lia]). change (series (0, 0) complex_sum) with csm. change complex_product with (@cmul R _).
  rewrite conj_mul. f_equal. { unfold conjugated. cbn. f_equal. ring. }
  rewrite conj_csm. set (T := fun k => cmul (sel (dft (-1) (cpx l)) k) (cmul (g (frequency n k), 0) (circle (2 * PI * IZR (frequency n k) * t / INR n)))).
  set (G := fun z => T (Z.to_nat (z mod Z.of_nat n))).
  transitivity (csm n (fun i => G (- Z.of_nat i)%Z)); [|transitivity (csm n (fun i => G (Z.of_nat i)))].
  - apply csm_ext. intros k Hk. unfold G.
    assert (EX : forall k, (k < n)%nat -> sel (dft (-1) (cpx l)) k = spectrum (-1) (cpx l) (Z.of_nat k)).
    { intros q Hq. rewrite dft_at by (by rewrite cpx_length). done. }
    assert (Hspec : conjugated (sel (dft (-1) (cpx l)) k) = spectrum (-1) (cpx l) (- Z.of_nat k)) by (rewrite EX by done; apply conj_spectrum).
    rewrite !conj_mul, Hspec, conj_circle. replace (conjugated (g (frequency n k), 0)) with ((g (frequency n k), 0) : C) by (unfold conjugated; cbn; f_equal; ring).
    destruct (decide (k = 0%nat)) as [->|Hk0].
    + change (- Z.of_nat 0)%Z with (Z.of_nat 0). rewrite Z.mod_small by lia. rewrite Nat2Z.id. unfold T. rewrite EX by done. do 3 f_equal.
      assert (Ef : frequency n 0 = 0%Z). { unfold frequency. destruct (Nat.ltb_spec 0 (n - n / 2)) as [?|K]; [done|]. pose proof (Nat.div_lt n 2 Hn). lia. }
      rewrite Ef. unfold Rdiv. ring.
    + assert (Em : ((- Z.of_nat k) mod Z.of_nat n = Z.of_nat (n - k))%Z). { symmetry. apply (Z.mod_unique _ _ (-1)); lia. }
      rewrite Em, Nat2Z.id. unfold T. rewrite EX by lia. rewrite frequency_flip by (done || lia). rewrite Hg, opp_IZR. f_equal.
      * rewrite <- (spectrum_period (-1) (cpx l) (- Z.of_nat k) 1) by (by rewrite cpx_length). rewrite cpx_length. fold n. f_equal. lia.
      * f_equal. f_equal. unfold Rdiv. ring.
  - apply csm_flip. intros z. unfold G. do 2 f_equal. rewrite <- (Z.mod_add z 1 (Z.of_nat n)) at 1 by lia. f_equal. lia.
  - apply csm_ext. intros k Hk. unfold G. rewrite Z.mod_small by lia. by rewrite Nat2Z.id.
Qed.
Lemma conj_fixed (z : C) : conjugated z = z -> of_real (fst z) = z.
Proof. destruct z as [x y]. unfold conjugated, of_real. cbn. intros E. injection E as E. f_equal. lra. Qed.
Lemma band_even m f : Nat.odd m = true -> band m (- f) = band m f.
Proof.
  intros Ho. apply Nat.odd_spec in Ho as [j ->]. assert (Eh : ((2 * j + 1) / 2)%nat = j) by (symmetry; apply (Nat.div_unique _ 2 j 1); lia).
  unfold band, in_band. rewrite Eh. replace (2 * j + 1 - j)%nat with (j + 1)%nat by lia.
  destruct (Z.leb_spec (- Z.of_nat j) (- f)), (Z.ltb_spec (- f) (Z.of_nat (j + 1))), (Z.leb_spec (- Z.of_nat j) f), (Z.ltb_spec f (Z.of_nat (j + 1))); try done; lia.
Qed.
Lemma samples_real l m : Nat.odd (length l) = true -> (length l <= m)%nat ->
  map of_real (map fst (samples (map of_real l) (band m) m 0)) = samples (map of_real l) (band m) m 0.
Proof.
  intros Ho Hm. assert (Hl : length (map of_real l) = length l) by apply map_length. rewrite (samples_ext _ _ (fun _ => 1)) by (intros; apply band_up; lia).
  rewrite map_map. unfold samples. rewrite map_map. apply map_ext. intros i. apply conj_fixed. by apply polynomial_real.
Qed.
Theorem there_and_back_real l m : Nat.odd (length l) = true -> (length l <= m)%nat ->
  map fst (samples (map of_real (map fst (samples (map of_real l) (band m) m 0))) (band (length l)) (length l) 0) = l.
Proof.
  intros Ho Hm. rewrite samples_real by done. assert (Hl : length (map of_real l) = length l) by apply map_length.
  pose proof (there_and_back (map of_real l) m) as E. rewrite Hl in E. rewrite E; [|by intros K; destruct l; [done|discriminate K]|done]. rewrite map_map. apply map_id.
Qed.
