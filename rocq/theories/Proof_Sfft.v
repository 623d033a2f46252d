From Verif Require Export Proof_Mirror.
From stdpp Require Import list_numbers.
Local Open Scope nat_scope.

Section any.
Context {A : Type} `{Num A} `{Flt A} `{Rem A} `{Trig A} `{F : Fft A}.

Lemma zero_interleave_b_keeps b (v v' : dvec A) b' f : zero_interleave_b n0 b v f = Done (v', b') -> still_lends b v b' v'.
Proof.
  unfold zero_interleave_b. cbv zeta. destruct (f <=? 1); [intros E; injection E as <- <-; exact (fun _ h => h)|].
  destruct (borrow n0 b _) as [t|]; [|done]. rewrite bind_Done. destruct (slice _ _ _) as [sr|]; [|done]. rewrite bind_Done.
  destruct (rd t 0); [|done]. rewrite bind_Done. destruct (while_ _ _ _ _) as [rr|]; [|done]. rewrite bind_Done.
  destruct (trade b _ _) as [st b''] eqn:E. intros E'. injection E' as <- <-. by eapply trade_keeps.
Qed.
Lemma lends_to_complex b (v : dvec A) n : lends b (vec_to_complex v) n <-> lends b v n.
Proof. by destruct b, v. Qed.

(** The real parts *)
Lemma pure_re_spec (op : A * A -> A) s sched b (v : dvec A) c : vdata v = Done (complex_to_array c) -> lends b v (length c) ->
  exists v' b', pure_complex_to_real_operation n0 s sched b op Small v = Done (v', b') /\ vdata v' = Done (map op c) /\ same_meta v v' /\ still_lends b v b' v'.
Proof.
  intros Hv Hb. destruct (vdata_split v _ Hv) as (rest & He & Hn).
  unfold pure_complex_to_real_operation. rewrite Hn, complex_to_array_length, div2_double.
  destruct (borrow_lends n0 b v (length c) Hb) as (T & -> & HT). rewrite bind_Done.
  rewrite He. rewrite slice_pre' by (by rewrite complex_to_array_length). rewrite bind_Done. rewrite slice_Done by lia. rewrite bind_Done.
  rewrite drop_0, Nat.sub_0_r. rewrite take_ge by lia. rewrite from_src_to_dest_small.
  rewrite run_steps_cons. cbn [fst snd].
  assert (Hsl : forall Q (k : list (A * A) -> run Q), (src ← slice (complex_to_array c) 0 (length (complex_to_array c)); src0 ← array_to_complex src; k src0) = k c).
  { intros Q k. pose proof (slice_pre (complex_to_array c) []) as Hs. rewrite app_nil_r in Hs. by rewrite Hs, bind_Done, array_to_complex_Done, bind_Done. }
  rewrite (Hsl _ (fun _ => Done T)), bind_Done.
  replace (length T) with (length (map op c)) by (rewrite map_length; lia). rewrite fill_steps.
  2: rewrite map_length; lia.
  2: { intros j x t' Hx. rewrite list_lookup_fmap in Hx. destruct (c !! j) as [p|] eqn:Hp; [|done]. injection Hx as <-.
       rewrite (Hsl _ (fun src => match src !! j with Some x => wr t' j (op x) | None => Done t' end)). by rewrite Hp. }
  rewrite bind_Done. rewrite splice_Done by (rewrite map_length; lia). rewrite bind_Done. rewrite take_0, app_nil_l, Nat.add_0_l, map_length.
  rewrite drop_ge, app_nil_r by lia.
  destruct (trade_vdata b v (map op c) (length c) Hb (map_length _ _)) as (w & b' & Hw & Hwd & Hwm).
  destruct (trade b (map op c) (data v)) as [st b2] eqn:Et. injection Hw as Hw1 Hw2.
  eexists _, _. split; [reflexivity|].
  change (set_data (set_valid_len v (length c)) st) with (set_valid_len (set_data v st) (length c)). rewrite Hw1. split_and!; try done.
  eapply trade_keeps; [exact Et|]. by rewrite <- Hw1.
Qed.

(** ** sfft *)

(** Even lengths and the wrong domain *)
Theorem symmetric_fft_even prepare f b (v : dvec A) : vdomain v = Time -> is_complex v = false -> Nat.even (len v) = true -> typed v ->
  exists v', symmetric_fft prepare f b v = Done (v', b, Err InputMustHaveAnOddLength) /\ poisoned v' /\ is_complex v' = true.
Proof.
  intros Hd Hc He Ht. unfold symmetric_fft. rewrite Hd, Hc. cbn [ddomain_eqb negb orb].
  assert (Hm : points v mod 2 = 0). { unfold points, len in *. rewrite Hc. apply Nat.even_spec in He. destruct He as [k E]. rewrite E, Nat.mul_comm, Nat.div_1_r. by apply Nat.mod_mul. }
  rewrite Hm. cbn [Nat.eqb]. eexists. split; [reflexivity|].
  unfold invalid_transform, freq_result, gen_or, typed, poisoned in *. destruct v as [st dl dm ns vl]. cbn in *. destruct ns, dm; done.
Qed.
Theorem symmetric_fft_wrong prepare f b (v : dvec A) : vdomain v <> Time \/ is_complex v = true -> typed v ->
  exists v', symmetric_fft prepare f b v = Done (v', b, Err InputMustBeInTimeDomain) /\ poisoned v' /\ is_complex v' = true.
Proof.
  intros Hd Ht. unfold symmetric_fft. assert (E : negb (ddomain_eqb (vdomain v) Time) || is_complex v = true).
  { destruct (vdomain v), (is_complex v); try done. destruct Hd; done. }
  rewrite E. eexists. split; [reflexivity|].
  unfold invalid_transform, freq_result, gen_or, typed, poisoned in *. destruct v as [st dl dm ns vl]. cbn in *. destruct ns, dm; done.
Qed.

Lemma unmirror_spec (v : dvec A) X pts : cplx v X -> Nat.odd (pts / 2 + 1) = false -> pts / 2 + 1 <= 2 * length X ->
  exists v', unmirror v pts = Done v' /\ cplx v' (take ((pts / 2 + 1) / 2) X) /\ same_meta v v' /\ alloc_len v' = alloc_len v.
Proof.
  intros [Hc Hv] Ho Hl. destruct (vdata_split v _ Hv) as (rest & He & Hn).
  assert (Hal : 2 * length X <= alloc_len v). { unfold alloc_len, s_len. unfold elems in He. rewrite He, app_length, complex_to_array_length. lia. }
  unfold unmirror, Model_Vec.resize. rewrite Hc, Ho. cbn [andb]. rewrite (proj2 (Nat.ltb_ge _ _)) by lia. eexists. split; [reflexivity|]. split_and!; try done.
  split; [done|]. set (m := pts / 2 + 1) in *. apply vdata_intro with (drop m (complex_to_array X) ++ rest).
  - change (elems (set_valid_len v m)) with (elems v). rewrite He, app_assoc. f_equal. 
    assert (Hm : m = 2 * (m / 2)). { rewrite even_odd_false in Ho. apply Nat.even_spec in Ho. destruct Ho as [k ->]. rewrite Nat.mul_comm at 2. by rewrite Nat.div_mul. }
    rewrite Hm at 2. rewrite <- complex_to_array_take, <- Hm. by rewrite take_drop.
  - change (valid_len (set_valid_len v m)) with m. rewrite complex_to_array_length, take_length.
    assert (Hm : m = 2 * (m / 2)). { rewrite even_odd_false in Ho. apply Nat.even_spec in Ho. destruct Ho as [k ->]. rewrite Nat.mul_comm at 2. by rewrite Nat.div_mul. }
    lia.
Qed.
Lemma unmirror_odd (v : dvec A) pts : is_complex v = true -> Nat.odd (pts / 2 + 1) = true -> unmirror v pts = Panicked.
Proof. intros Hc Ho. unfold unmirror, Model_Vec.resize. by rewrite Hc, Ho. Qed.

End any.

Section transforms.
Context {A : Type} `{Num A} `{Flt A} `{Rem A} `{Trig A} `{F : Fft A}.
Context (Hlf : forall c, length (fft_forward c) = length c) (Hli : forall c, length (fft_inverse c) = length c).

(** Statically typed vectors: the zeros are interleaved twice. *)
Theorem plain_sfft_static b (v : dvec A) l : reals v l -> number_space v = NReal -> domain v = DTime -> Nat.odd (length l) = true ->
  lends b v (4 * length l) -> spare b (2 * fft_inplace_scratch_len (2 * length l)) ->
  exists v' b', plain_sfft b v = Done (v', b', Ok tt) /\
    cplx v' (take ((length l + 1) / 2) (fft_forward (map (fun x => (x, n0)) (interleaved n0 2 l)))) /\
    number_space v' = NComplex /\ domain v' = DFreq /\ delta v' = (nofnat (2 * length l) * delta v)%num /\ still_spare b b'.
Proof using Hlf. clear Hli.
  intros Hv Hns Hdm Hodd Hb Hb2. assert (Hne : l <> []) by (by destruct l).
  unfold plain_sfft, symmetric_fft. unfold vdomain. rewrite Hdm, (proj1 Hv). cbn [dm_domain ddomain_eqb negb orb].
  rewrite (points_reals v l Hv). assert (Hm : length l mod 2 = 1). { apply Nat.odd_spec in Hodd. destruct Hodd as [k ->]. rewrite Nat.add_comm, Nat.mul_comm. by rewrite Nat.mod_add. }
  rewrite Hm. cbn [Nat.eqb].
  destruct (zero_interleave_b_real n0 b v l 2 Hv Hne ltac:(lia)) as (v1 & b1 & E1 & (M1 & M2 & M3) & Hv1).
  { destruct b; try done. cbn in *. lia. }
  rewrite E1, bind_Done. pose proof (zero_interleave_b_keeps _ _ _ _ _ E1) as Hk1. apply zero_interleave_b_spare in E1.
  assert (Ev : vec_to_complex v1 = v1). { destruct v1 as [? ? ? ns ?]. cbn in *. rewrite M3, Hns. done. } rewrite Ev, bind_Done. cbv zeta.
  assert (Hl1 : length (interleaved n0 2 l) = 2 * length l). { rewrite interleaved_length by lia. lia. }
  destruct (plain_fft_any_real Hlf b1 v1 _ Hv1) as (v2 & b2 & -> & Hv2 & Hd2 & Hdl2 & Ht2 & Hrt2 & Hs2).
  { intros E. rewrite E in Hl1. cbn in Hl1. destruct l; [done|]. cbn in Hl1. lia. }
  { unfold vdomain. by rewrite M2, Hdm. } { unfold typed. by rewrite M2, M3, Hns, Hdm. } { rewrite Hl1. apply Hk1. by replace (2 * (2 * length l)) with (4 * length l) by lia. }
  { rewrite Hl1. by apply E1. }
  rewrite bind_Done, (points_reals v1 _ Hv1), Hl1.
  assert (Hdiv : 2 * length l / 2 + 1 = length l + 1) by (rewrite Nat.mul_comm, Nat.div_mul; lia).
  destruct (unmirror_spec v2 _ (2 * length l) Hv2) as (v3 & -> & Hv3 & (N1 & N2 & N3) & _).
  { rewrite Hdiv. rewrite Nat.add_1_r, Nat.odd_succ. rewrite <- Nat.negb_odd, Hodd. done. }
  { rewrite Hdiv, Hlf, map_length, Hl1. destruct l; [done|]. cbn. lia. }
  rewrite bind_Done. rewrite Hdiv in Hv3.
  assert (number_space v2 = NComplex /\ domain v2 = DFreq) as [Hst1 Hst2].
  { destruct Hv2 as [Hc2 _]. unfold is_complex, vdomain, typed, runtime in *. destruct v2 as [? ? dm2 ns2 ?]. cbn in *.
    assert (Hnr : ~ (exists c d, number_space v1 = NDyn c /\ domain v1 = DDyn d)) by (intros (cc & dd & E' & _); congruence).
    rewrite <- Hrt2 in Hnr. destruct ns2, dm2; try done. exfalso. apply Hnr. by eexists _, _. }
  eexists _, _. split; [reflexivity|]. split_and!; try done.
  - by rewrite N3.
  - by rewrite N2.
  - rewrite N1, Hdl2, Hl1, M1. done.
  - by eapply still_spare_trans.
Qed.

Theorem sfft_static b (v : dvec A) l : reals v l -> number_space v = NReal -> domain v = DTime -> Nat.odd (length l) = true ->
  lends b v (4 * length l) -> spare b (2 * fft_inplace_scratch_len (2 * length l)) ->
  exists v' b' X, sfft b v = Done (v', b', Ok tt) /\ rotated_by (length l) (fft_forward (map (fun x => (x, n0)) (interleaved n0 2 l))) X /\
    cplx v' (take ((length l + 1) / 2) X) /\
    number_space v' = NComplex /\ domain v' = DFreq /\ delta v' = (nofnat (2 * length l) * delta v)%num /\ still_spare b b'.
Proof using Hlf. clear Hli.
  intros Hv Hns Hdm Hodd Hb Hb2. assert (Hne : l <> []) by (by destruct l).
  unfold sfft, symmetric_fft. unfold vdomain. rewrite Hdm, (proj1 Hv). cbn [dm_domain ddomain_eqb negb orb].
  rewrite (points_reals v l Hv). assert (Hm : length l mod 2 = 1). { apply Nat.odd_spec in Hodd. destruct Hodd as [k ->]. rewrite Nat.add_comm, Nat.mul_comm. by rewrite Nat.mod_add. }
  rewrite Hm. cbn [Nat.eqb].
  destruct (zero_interleave_b_real n0 b v l 2 Hv Hne ltac:(lia)) as (v1 & b1 & E1 & (M1 & M2 & M3) & Hv1).
  { destruct b; try done. cbn in *. lia. }
  rewrite E1, bind_Done. pose proof (zero_interleave_b_keeps _ _ _ _ _ E1) as Hk1. apply zero_interleave_b_spare in E1.
  assert (Ev : vec_to_complex v1 = v1). { destruct v1 as [? ? ? ns ?]. cbn in *. rewrite M3, Hns. done. } rewrite Ev, bind_Done. cbv zeta.
  assert (Hl1 : length (interleaved n0 2 l) = 2 * length l). { rewrite interleaved_length by lia. lia. }
  destruct (fft_any_real Hlf b1 v1 _ Hv1) as (v2 & b2 & X & -> & Hv2 & Rot & Hd2 & Hdl2 & Ht2 & Hrt2 & Hs2).
  { intros E. rewrite E in Hl1. cbn in Hl1. destruct l; [done|]. cbn in Hl1. lia. }
  { unfold vdomain. by rewrite M2, Hdm. } { unfold typed. by rewrite M2, M3, Hns, Hdm. } { rewrite Hl1. apply Hk1. by replace (2 * (2 * length l)) with (4 * length l) by lia. }
  { rewrite Hl1. by apply E1. }
  rewrite bind_Done, (points_reals v1 _ Hv1), Hl1.
  assert (Hdiv : 2 * length l / 2 + 1 = length l + 1) by (rewrite Nat.mul_comm, Nat.div_mul; lia).
  assert (HlX : length X = 2 * length l). { destruct Rot as [E _]. by rewrite E, Hlf, map_length, Hl1. }
  destruct (unmirror_spec v2 _ (2 * length l) Hv2) as (v3 & -> & Hv3 & (N1 & N2 & N3) & _).
  { rewrite Hdiv. rewrite Nat.add_1_r, Nat.odd_succ. rewrite <- Nat.negb_odd, Hodd. done. }
  { rewrite Hdiv, HlX. destruct l; [done|]. cbn. lia. }
  rewrite bind_Done. rewrite Hdiv in Hv3.
  assert (number_space v2 = NComplex /\ domain v2 = DFreq) as [Hst1 Hst2].
  { destruct Hv2 as [Hc2 _]. unfold is_complex, vdomain, typed, runtime in *. destruct v2 as [? ? dm2 ns2 ?]. cbn in *.
    assert (Hnr : ~ (exists c d, number_space v1 = NDyn c /\ domain v1 = DDyn d)) by (intros (cc & dd & E' & _); congruence).
    rewrite <- Hrt2 in Hnr. destruct ns2, dm2; try done. exfalso. apply Hnr. by eexists _, _. }
  rewrite Hl1 in Rot. replace (2 * length l / 2) with (length l) in Rot by lia.
  eexists _, _, X. split; [reflexivity|]. split_and!; try done.
  - by rewrite N3.
  - by rewrite N2.
  - rewrite N1, Hdl2, Hl1, M1. done.
  - by eapply still_spare_trans.
Qed.

(** Vectors which keep the meta data at run time: the length of the half spectrum is counted in elements instead of points. *)
Theorem plain_sfft_gen b (v : dvec A) l : reals v l -> runtime v -> vdomain v = Time -> Nat.odd (length l) = true ->
  lends b v (2 * length l) -> spare b (2 * fft_inplace_scratch_len (length l)) ->
  (length l mod 4 = 1 -> plain_sfft b v = Panicked) /\
  (length l mod 4 = 3 -> exists v' b', plain_sfft b v = Done (v', b', Ok tt) /\
     cplx v' (take ((length l + 1) / 4) (fft_forward (map (fun x => (x, n0)) l)))).
Proof using Hlf. clear Hli.
  intros Hv Hrt Hd Hodd Hb Hb2. assert (Hne : l <> []) by (by destruct l).
  unfold plain_sfft, symmetric_fft. rewrite Hd, (proj1 Hv). cbn [ddomain_eqb negb orb].
  rewrite (points_reals v l Hv). assert (Hm : length l mod 2 = 1). { apply Nat.odd_spec in Hodd. destruct Hodd as [k ->]. rewrite Nat.add_comm, Nat.mul_comm. by rewrite Nat.mod_add. }
  rewrite Hm. cbn [Nat.eqb].
  destruct (zero_interleave_b_real n0 b v l 2 Hv Hne ltac:(lia)) as (v1 & b1 & E1 & (M1 & M2 & M3) & Hv1). { by rewrite Nat.mul_comm. }
  rewrite E1, !bind_Done. apply zero_interleave_b_spare in E1. cbv zeta.
  destruct Hrt as (cc & dd & Hns & Hdm). set (w := vec_to_complex v1).
  assert (Hw : cplx w (map (fun x => (x, n0)) l)).
  { split; [unfold w, vec_to_complex, is_complex; destruct v1; cbn in *; by rewrite M3, Hns|]. rewrite <- interleaved_pairs. rewrite <- (proj2 Hv1). by destruct v1. }
  assert (Hwt : runtime w). { unfold w, vec_to_complex, runtime. destruct v1; cbn in *. rewrite M3, Hns. exists true, dd. split; [done|]. congruence. }
  destruct (plain_fft_any Hlf b1 w _ Hw) as (v2 & b2 & -> & Hv2 & Hd2 & Hr2 & Hdl2 & Ht2 & Hrt2 & Hs2).
  { unfold w, vec_to_complex, vdomain in *. destruct v1; cbn in *. by rewrite M2. }
  { destruct Hwt as (? & ? & E & E'). unfold typed. by rewrite E, E'. } { rewrite map_length. by apply E1. }
  rewrite bind_Done. rewrite (points_cplx w _ Hw), map_length.
  pose proof (Nat.div_mod_eq (length l) 4) as D4. split; intros Hm4; rewrite Hm4 in D4.
  - rewrite (unmirror_odd v2); [done | apply Hv2 |]. rewrite D4. replace ((4 * (length l / 4) + 1) / 2 + 1) with (1 + 2 * (length l / 4)) by lia.
    by rewrite Nat.odd_add_mul_2.
  - assert (Hdiv : length l / 2 + 1 = 2 * (length l / 4 + 1)) by lia.
    destruct (unmirror_spec v2 _ (length l) Hv2) as (v3 & -> & Hv3 & _).
    { rewrite Hdiv. rewrite Nat.odd_mul. done. } { rewrite Hdiv, Hlf, map_length. lia. }
    rewrite bind_Done. eexists _, _. split; [reflexivity|]. rewrite Hdiv in Hv3. by replace ((length l + 1) / 4) with (2 * (length l / 4 + 1) / 2) by lia.
Qed.

(** ** sifft *)
Theorem plain_sifft_any s sched b (v : dvec A) c x : cplx v c -> vdomain v = Frequency -> c !! 0 = Some x ->
  nltb tolerance (fabs (snd x)) = false -> lends b v (2 * (2 * length c - 1)) -> spare b (2 * fft_inplace_scratch_len (2 * length c - 1)) ->
  exists v' b', plain_sifft s sched b v = Done (v', b', Ok tt) /\ vdata v' = Done (map fst (fft_inverse (c ++ rev (map conj1 (tail c))))) /\
    (number_space v = NComplex -> domain v = DFreq -> number_space v' = NReal /\ domain v' = DTime) /\
    (runtime v -> number_space v' = NDyn true /\ domain v' = DDyn Frequency).
Proof using Hli. clear Hlf.
  intros Hv Hd Hx Htol Hb Hb2. assert (Hne : c <> []) by (by destruct c). unfold plain_sifft. rewrite Hd, (proj1 Hv). cbn [ddomain_eqb negb orb].
  assert (Hpos : 0 < length c) by (destruct c; [done | cbn; lia]).
  rewrite (points_cplx v c Hv). rewrite (proj2 (Nat.ltb_lt _ _) Hpos).
  destruct (vdata_split v _ (proj2 Hv)) as (rest & He & Hn).
  assert (Hrd : rd (elems v) 1 = Done (snd x)).
  { apply rd_Done. rewrite He, lookup_app_l by (rewrite complex_to_array_length; lia). destruct (complex_to_array_lookup c 0) as [_ L]. rewrite Hx in L. exact L. }
  rewrite Hrd, !bind_Done, Htol. cbv iota.
  destruct (mirror_app b v c Hv Hne Hb) as (v1 & b1 & -> & Hv1 & (M1 & M2 & M3) & Hk1 & Hs1). rewrite bind_Done.
  set (c1 := c ++ _) in *. assert (Hl1 : length c1 = 2 * length c - 1). { destruct (mirrored_app c Hne) as (E & _). exact E. }
  assert (Hb1 : spare b1 (2 * fft_inplace_scratch_len (length c1))).
  { rewrite Hl1. by apply Hs1. }
  destruct (run_fft_spec fft_inverse b1 v1 c1 (proj2 Hv1) (Hli c1) Hb1) as (v2 & b2 & E2 & Hv2 & Hr2 & Hdl2 & Hns2 & Hdm2 & Hs2).
  rewrite E2, bind_Done. assert (Hv2' : vdata (vec_to_freq v2) = Done (complex_to_array (fft_inverse c1))) by (by destruct v2).
  assert (Hk2 : lends b2 (vec_to_freq v2) (length (fft_inverse c1))).
  { rewrite Hli, Hl1. specialize (Hk1 _ Hb). destruct b2 as [| |store2]; [done..|].
    assert (Hal : alloc_len (vec_to_freq v2) = alloc_len v1).
    { change (alloc_len (vec_to_freq v2)) with (alloc_len v2). apply alloc_rest; [by apply (vdata_fits v1 _ (proj2 Hv1)) | by apply (vdata_fits v2 _ Hv2) | done]. }
    cbn. rewrite Hal. unfold run_fft in E2. destruct (borrow n0 b1 _) as [tmp|]; [|done]. rewrite bind_Done in E2.
    destruct (slice _ _ _) as [sg|]; [|done]. rewrite bind_Done in E2. destruct (array_to_complex sg) as [sg2|]; [|done]. rewrite bind_Done in E2.
    destruct (splice _ _ _); [|done]. rewrite bind_Done in E2. injection E2 as _ E2. destruct b1 as [| |store1]; [done..|]. injection E2 as <-. cbn in Hk1. lia. }
  destruct (pure_re_spec fst s sched b2 (vec_to_freq v2) _ Hv2' Hk2) as (v3 & b3 & -> & Hv3 & (N1 & N2 & N3) & _). rewrite bind_Done.
  eexists _, _. split; [reflexivity|]. split_and!.
  - rewrite <- Hv3. destruct v3, (real_time_result v); done.
  - intros Hns Hdm. unfold real_time_result, gen_or. rewrite Hns, Hdm. done.
  - intros (cc & dd & Hns & Hdm). destruct Hv as [Hc _]. unfold is_complex, vdomain in *. unfold real_time_result, gen_or. rewrite Hns in *. cbn in Hc.
    destruct v3 as [? ? dm3 ns3 ?]. cbn in *. unfold is_complex. cbn. rewrite N3, Hns2, M3, Hc, N2, Hdm2, M2, Hdm. done.
Qed.
Theorem plain_sifft_static s sched b (v : dvec A) c x : cplx v c -> number_space v = NComplex -> domain v = DFreq -> c !! 0 = Some x ->
  nltb tolerance (fabs (snd x)) = false -> lends b v (2 * (2 * length c - 1)) -> spare b (2 * fft_inplace_scratch_len (2 * length c - 1)) ->
  exists v' b', plain_sifft s sched b v = Done (v', b', Ok tt) /\ reals v' (map fst (fft_inverse (c ++ rev (map conj1 (tail c))))) /\
    number_space v' = NReal /\ domain v' = DTime.
Proof using Hli. clear Hlf.
  intros Hv Hns Hdm Hx Ht Hb Hb2. destruct (plain_sifft_any s sched b v c x Hv ltac:(unfold vdomain; by rewrite Hdm) Hx Ht Hb Hb2) as (v' & b' & E & Hv' & K & _).
  destruct (K Hns Hdm) as [K1 K2]. exists v', b'. split_and!; try done. split; [|done]. unfold is_complex. by rewrite K1.
Qed.

(** Errors *)
Theorem plain_sifft_wrong s sched b (v : dvec A) : vdomain v <> Frequency \/ is_complex v = false ->
  exists v', plain_sifft s sched b v = Done (v', b, Err InputMustBeInFrequencyDomain) /\ poisoned v'.
Proof using. clear Hlf Hli.
  intros Hd. unfold plain_sifft. assert (E : negb (ddomain_eqb (vdomain v) Frequency) || negb (is_complex v) = true).
  { destruct (vdomain v), (is_complex v); try done; destruct Hd; done. }
  rewrite E. eexists. split; [reflexivity|]. unfold invalid_transform, poisoned. destruct v as [st dl dm ns vl]. destruct (real_time_result _), ns, dm; done.
Qed.
Theorem plain_sifft_asymmetric s sched b (v : dvec A) c x : cplx v c -> vdomain v = Frequency -> c !! 0 = Some x -> nltb tolerance (fabs (snd x)) = true ->
  exists v', plain_sifft s sched b v = Done (v', b, Err InputMustBeConjSymmetric) /\ poisoned v'.
Proof using. clear Hlf Hli.
  intros Hv Hd Hx Htol. unfold plain_sifft. rewrite Hd, (proj1 Hv). cbn [ddomain_eqb negb orb].
  assert (Hpos : 0 < length c) by (destruct c; [done | cbn; lia]).
  rewrite (points_cplx v c Hv). rewrite (proj2 (Nat.ltb_lt _ _) Hpos).
  destruct (vdata_split v _ (proj2 Hv)) as (rest & He & Hn).
  assert (Hrd : rd (elems v) 1 = Done (snd x)).
  { apply rd_Done. rewrite He, lookup_app_l by (rewrite complex_to_array_length; lia). destruct (complex_to_array_lookup c 0) as [_ L]. rewrite Hx in L. exact L. }
  rewrite Hrd, !bind_Done, Htol. cbv iota. eexists. split; [reflexivity|]. unfold invalid_transform, poisoned. destruct v as [st dl dm ns vl]. destruct (real_time_result _), ns, dm; done.
Qed.
Theorem plain_sifft_empty s sched b (v : dvec A) : cplx v [] -> vdomain v = Frequency -> plain_sifft s sched b v = Panicked.
Proof using. clear Hlf Hli.
  intros Hv Hd. unfold plain_sifft. rewrite Hd, (proj1 Hv). cbn [ddomain_eqb negb orb]. rewrite (points_cplx v [] Hv). cbn [length Nat.ltb Nat.leb]. rewrite bind_Done. cbv iota.
  unfold mirror. rewrite Hd, (reals_len v _ (proj2 Hv)). done.
Qed.
Theorem mirror_empty b (v : dvec A) : cplx v [] -> mirror b v = Panicked.
Proof using. clear Hlf Hli. intros Hv. unfold mirror. rewrite (proj1 Hv), andb_false_r, (reals_len v _ (proj2 Hv)). done. Qed.
End transforms.
