From Verif Require Export Proof_Sfft.
From stdpp Require Import list_numbers.
Local Open Scope R_scope.
Local Notation C := (R * R)%type.

Definition cpx (l : list R) : list C := map (fun x => (x, 0)) l.
Lemma cpx_length l : length (cpx l) = length l. Proof. apply map_length. Qed.

Lemma csm_pairs n f : csm (2 * n) f = csm n (fun j => cadd (f (2 * j)%nat) (f (2 * j + 1)%nat)).
Proof.
  induction n as [|n IH]; [done|]. replace (2 * S n)%nat with (S (S (2 * n))) by lia. rewrite !csm_S, IH. replace (S (2 * n)) with (2 * n + 1)%nat by lia. ring.
Qed.
Lemma turn_double n k : turn (2 * n) (2 * k) = turn n k.
Proof.
  unfold turn. rewrite mult_IZR, mult_INR. change (INR 2) with 2. destruct (decide (n = 0)%nat) as [->|Hn].
  - cbn. unfold Rdiv. rewrite Rmult_0_r, Rinv_0. by rewrite !Rmult_0_r.
  - assert (INR n <> 0) by (by apply not_0_INR). replace (2 * PI * (2 * IZR k) / (2 * INR n)) with (2 * PI * IZR k / INR n) by (field; done). done.
Qed.

(** Zeros between the points repeat the spectrum. *)
Lemma dft_interleaved s l : dft s (cpx (interleaved 0 2 l)) = dft s (cpx l) ++ dft s (cpx l).
Proof.
  set (n := length l). assert (Hl : length (interleaved 0 2 l) = (2 * n)%nat) by (rewrite interleaved_length; lia).
  apply list_eq. intros k. destruct (decide (k < 2 * n)%nat) as [Hk|Hk].
  2:{ rewrite !lookup_ge_None_2; [done | rewrite app_length, !dft_length, cpx_length; lia | rewrite dft_length, cpx_length; lia]. }
  assert (Hn : (0 < n)%nat) by lia.
  transitivity (Some (spectrum s (cpx l) (Z.of_nat k))).
  - rewrite dft_lookup by (rewrite cpx_length; lia). f_equal. rewrite cpx_length, Hl, csm_pairs. unfold spectrum. rewrite cpx_length. fold n. apply csm_ext. intros j Hj.
    assert (Hp : forall i, (i < 2 * n)%nat -> default (0, 0) (cpx (interleaved 0 2 l) !! i) = (default 0 (interleaved 0 2 l !! i), 0)).
    { intros i Hi. unfold cpx. change (map ?g ?m) with (g <$> m). rewrite list_lookup_fmap. destruct (lookup_lt_is_Some_2 (interleaved 0 2 l) i) as [y ->]; [lia|]. done. }
    rewrite !Hp by lia. rewrite !(interleaved_lookup 0 2 l) by lia.
    replace ((2 * j) mod 2)%nat with 0%nat by (rewrite Nat.mul_comm; by rewrite Nat.mod_mul).
    replace ((2 * j + 1) mod 2)%nat with 1%nat by (rewrite Nat.add_comm, Nat.mul_comm, Nat.mod_add by lia; done).
    cbn [Nat.eqb]. replace (2 * j / 2)%nat with j by lia. change (default ?aa (Some ?bb)) with bb.
    rewrite at_nat by (rewrite cpx_length; lia). unfold cpx. change (map ?g ?m) with (g <$> m). rewrite list_lookup_fmap.
    destruct (lookup_lt_is_Some_2 l j) as [y ->]; [lia|]. cbn [fmap option_fmap option_map]. change (default ?aa (Some ?bb)) with bb.
    replace (s * (Z.of_nat (2 * j) * Z.of_nat k))%Z with (2 * (s * (Z.of_nat j * Z.of_nat k)))%Z by lia. rewrite turn_double. ring.
  - destruct (decide (k < n)%nat) as [Hk2|Hk2].
    + rewrite lookup_app_l by (rewrite dft_length, cpx_length; lia). by rewrite dft_at by (rewrite cpx_length; lia).
    + rewrite lookup_app_r by (rewrite dft_length, cpx_length; lia). rewrite dft_length, cpx_length. fold n. rewrite dft_at by (rewrite cpx_length; lia).
      f_equal. rewrite <- (spectrum_period s (cpx l) (Z.of_nat (k - n)) 1) by (rewrite cpx_length; lia). f_equal. rewrite cpx_length. lia.
Qed.

Lemma conj_spectrum s l k : conjugated (spectrum s (cpx l) k) = spectrum s (cpx l) (- k).
Proof.
  unfold spectrum. rewrite conj_csm. apply csm_ext. intros j Hj. rewrite conj_mul, conj_turn. rewrite cpx_length in *. f_equal.
  - rewrite at_nat by (by rewrite cpx_length). unfold cpx. change (map ?g ?m) with (g <$> m). rewrite list_lookup_fmap.
    destruct (l !! j); cbn; unfold conjugated; cbn; f_equal; ring.
  - f_equal. lia.
Qed.
Lemma conj1_conjugated (x : C) : conj1 x = conjugated x. Proof. done. Qed.

(** The half spectrum of a real signal determines the other half. *)
Lemma half_spectrum l m : length l = (2 * m + 1)%nat ->
  let D := dft (-1) (cpx l) in take (m + 1) D ++ rev (map conj1 (tail (take (m + 1) D))) = D.
Proof.
  intros Hl D. assert (HlD : length D = (2 * m + 1)%nat) by (unfold D; rewrite dft_length, cpx_length; done).
  rewrite <- (take_drop (m + 1) D) at 3. f_equal. apply list_eq. intros k.
  set (h := tail (take (m + 1) D)). assert (Hh : length h = m). { unfold h. rewrite tail_length || idtac. destruct (take (m + 1) D) as [|x t] eqn:E.
    - apply (f_equal length) in E. rewrite take_length in E. cbn in E. lia.
    - apply (f_equal length) in E. rewrite take_length in E. cbn in *. lia. }
  assert (Hhl : forall i, (i < m)%nat -> h !! i = D !! (S i)).
  { intros i Hi. unfold h. transitivity (take (m + 1) D !! S i); [|by rewrite lookup_take by lia]. by destruct (take (m + 1) D). }
  destruct (decide (k < m)%nat) as [Hk|Hk].
  2:{ rewrite !lookup_ge_None_2; [done | rewrite drop_length; lia | rewrite rev_length, map_length; lia]. }
  rewrite rev_lookup by (rewrite map_length; lia). rewrite map_length, Hh. change (map conj1 h) with (conj1 <$> h). rewrite list_lookup_fmap, Hhl by lia.
  rewrite lookup_drop. unfold D. rewrite !dft_at by (rewrite cpx_length; lia). cbn [fmap option_fmap option_map]. f_equal. rewrite conj1_conjugated, conj_spectrum.
  rewrite <- (spectrum_period _ _ _ 1) by (rewrite cpx_length; lia). f_equal. rewrite cpx_length. lia.
Qed.

Lemma rotated_twice {T} (D X : list T) : rotated_by (length D) (D ++ D) X -> X = D ++ D.
Proof.
  intros [Hl Hr]. rewrite app_length in *. apply list_eq. intros i. destruct (decide (i < length D + length D)%nat) as [Hi|Hi].
  2:{ rewrite !lookup_ge_None_2; [done | rewrite app_length; lia | lia]. }
  destruct (decide (i < length D)%nat) as [Hi2|Hi2].
  - assert (E : ((i + length D + length D) mod (length D + length D) = i)%nat).
    { replace (i + length D + length D)%nat with (i + 1 * (length D + length D))%nat by lia. rewrite Nat.mod_add by lia. apply Nat.mod_small. lia. }
    rewrite <- E at 1. rewrite Hr by lia. rewrite lookup_app_r by lia. rewrite lookup_app_l by lia. f_equal. lia.
  - assert (E : ((i - length D + length D) mod (length D + length D) = i)%nat) by (rewrite Nat.mod_small; lia).
    rewrite <- E at 1. rewrite Hr by lia. rewrite lookup_app_l by lia. by rewrite lookup_app_r by lia.
Qed.

Section real.
Context `{F : Fft R} (HF : computes_dft).
Let Hlf : forall c, length (fft_forward c) = length c. Proof. intros c. destruct HF as (-> & _). apply dft_length. Qed.
Let Hli : forall c, length (fft_inverse c) = length c. Proof. intros c. destruct HF as (_ & -> & _). apply dft_length. Qed.

Theorem plain_sfft_half b (v : dvec R) l : reals v l -> number_space v = NReal -> domain v = DTime -> Nat.odd (length l) = true ->
  lends b v (4 * length l) -> spare b (2 * fft_inplace_scratch_len (2 * length l)) ->
  exists v' b', plain_sfft b v = Done (v', b', Ok tt) /\ cplx v' (take ((length l + 1) / 2) (dft (-1) (map (fun x => (x, 0)) l))) /\
    number_space v' = NComplex /\ domain v' = DFreq /\ still_spare b b'.
Proof using HF.
  intros Hv Hns Hdm Ho Hb Hb2. destruct (plain_sfft_static Hlf b v l Hv Hns Hdm Ho Hb Hb2) as (v' & b' & E & Hv' & K1 & K2 & _ & K3).
  exists v', b'. split_and!; try done. destruct HF as (HF1 & _). rewrite HF1 in Hv'. cbn [n0 Rnum] in Hv'.
  change (map _ (interleaved 0 2 l)) with (cpx (interleaved 0 2 l)) in Hv'. rewrite dft_interleaved in Hv'.
  rewrite take_app_le in Hv'; [exact Hv'|]. rewrite dft_length, cpx_length. destruct (length l); [done|]. lia.
Qed.
Theorem sfft_half b (v : dvec R) l : reals v l -> number_space v = NReal -> domain v = DTime -> Nat.odd (length l) = true ->
  lends b v (4 * length l) -> spare b (2 * fft_inplace_scratch_len (2 * length l)) ->
  exists v' b', sfft b v = Done (v', b', Ok tt) /\ cplx v' (take ((length l + 1) / 2) (dft (-1) (map (fun x => (x, 0)) l))) /\
    number_space v' = NComplex /\ domain v' = DFreq /\ still_spare b b'.
Proof using HF.
  intros Hv Hns Hdm Ho Hb Hb2. destruct (sfft_static Hlf b v l Hv Hns Hdm Ho Hb Hb2) as (v' & b' & X & E & Rot & Hv' & K1 & K2 & _ & K3).
  exists v', b'. split_and!; try done. destruct HF as (HF1 & _). rewrite HF1 in Rot. cbn [n0 Rnum] in Rot.
  change (map _ (interleaved 0 2 l)) with (cpx (interleaved 0 2 l)) in Rot. rewrite dft_interleaved in Rot.
  replace (length l) with (length (dft (-1) (cpx l))) in Rot at 1 by (rewrite dft_length; apply cpx_length). apply rotated_twice in Rot. subst X.
  rewrite take_app_le in Hv'; [exact Hv'|]. rewrite dft_length, cpx_length. destruct (length l); [done|]. lia.
Qed.

(** [mirror] restores the full spectrum. *)
Theorem sfft_mirror b (v : dvec R) l b2 : reals v l -> number_space v = NReal -> domain v = DTime -> Nat.odd (length l) = true ->
  lends b v (4 * length l) -> spare b (2 * fft_inplace_scratch_len (2 * length l)) ->
  exists v' b', plain_sfft b v = Done (v', b', Ok tt) /\ (lends b2 v' (2 * length l) ->
    exists v2 b2', mirror b2 v' = Done (v2, b2') /\ cplx v2 (dft (-1) (map (fun x => (x, 0)) l))).
Proof using HF.
  intros Hv Hns Hdm Ho Hb Hb2. destruct (plain_sfft_half b v l Hv Hns Hdm Ho Hb Hb2) as (v' & b' & E & Hv' & K1 & K2 & K3).
  exists v', b'. split; [done|]. intros Hbb. apply Nat.odd_spec in Ho. destruct Ho as [m Hm].
  assert (Hm1 : ((length l + 1) / 2 = m + 1)%nat) by lia. rewrite Hm1 in Hv'. set (D := dft (-1) (cpx l)). change (dft (-1) (map _ l)) with D in Hv' |- *.
  assert (HlD : length D = length l) by (unfold D; rewrite dft_length; apply cpx_length).
  assert (Hlt : length (take (m + 1) D) = (m + 1)%nat) by (rewrite take_length; lia).
  destruct (mirror_app b2 v' _ Hv') as (v2 & b2' & E2 & Hv2 & _).
  { intros En. rewrite En in Hlt. cbn in Hlt. lia. } { rewrite Hlt. by replace (2 * (2 * (m + 1) - 1))%nat with (2 * length l)%nat by lia. }
  exists v2, b2'. split; [done|]. unfold D in *. rewrite (half_spectrum l m Hm) in Hv2. done.
Qed.

Lemma tolerance_pos : 0 < tolerance.
Proof.
  unfold tolerance. cbn [n1 ndiv nmul nofnat Rnum]. assert (0 < INR 10) by (apply lt_0_INR; lia).
  unfold Rdiv. apply Rmult_lt_0_compat; [lra|]. apply Rinv_0_lt_compat. repeat apply Rmult_lt_0_compat; done.
Qed.

(** [plain_sifft] undoes [plain_sfft] up to the number of points. *)
Theorem plain_sfft_sifft s sched b b2 (v : dvec R) l : reals v l -> number_space v = NReal -> domain v = DTime -> Nat.odd (length l) = true ->
  lends b v (4 * length l) -> spare b (2 * fft_inplace_scratch_len (2 * length l)) ->
  exists v1 b1, plain_sfft b v = Done (v1, b1, Ok tt) /\
    (lends b2 v1 (2 * length l) -> spare b2 (2 * fft_inplace_scratch_len (length l)) ->
     exists v2 b3, plain_sifft s sched b2 v1 = Done (v2, b3, Ok tt) /\ reals v2 (map (fun x => INR (length l) * x) l) /\ vdomain v2 = Time).
Proof using HF.
  intros Hv Hns Hdm Ho Hb Hb2. destruct (plain_sfft_half b v l Hv Hns Hdm Ho Hb Hb2) as (v' & b' & E & Hv' & K1 & K2 & K3).
  exists v', b'. split; [done|]. intros Hbb Hbs. apply Nat.odd_spec in Ho. destruct Ho as [m Hm].
  assert (Hm1 : ((length l + 1) / 2 = m + 1)%nat) by lia. rewrite Hm1 in Hv'. set (D := dft (-1) (cpx l)). change (dft (-1) (map _ l)) with D in Hv'.
  assert (HlD : length D = length l) by (unfold D; rewrite dft_length; apply cpx_length).
  assert (Hlt : length (take (m + 1) D) = (m + 1)%nat) by (rewrite take_length; lia).
  assert (HD0 : take (m + 1) D !! 0%nat = Some (spectrum (-1) (cpx l) 0)).
  { rewrite lookup_take by lia. unfold D. by rewrite dft_at by (rewrite cpx_length; lia). }
  assert (Him : snd (spectrum (-1) (cpx l) 0) = 0).
  { pose proof (conj_spectrum (-1) l 0) as Ec. change (- 0)%Z with 0%Z in Ec. apply (f_equal snd) in Ec. unfold conjugated in Ec. revert Ec. generalize (spectrum (-1) (cpx l) 0). intros [a c] Ec. cbn in Ec |- *. lra. }
  destruct (plain_sifft_static Hli s sched b2 v' _ _ Hv' K1 K2 HD0) as (v2 & b3 & E2 & Hv2 & N1 & N2).
  { rewrite Him. cbn [nltb fabs Rnum Rrem]. rewrite Rabs_R0. apply Rltb_false. pose proof tolerance_pos. lra. }
  { rewrite Hlt. by replace (2 * (2 * (m + 1) - 1))%nat with (2 * length l)%nat by lia. }
  { rewrite Hlt. by replace (2 * (m + 1) - 1)%nat with (length l) by lia. }
  exists v2, b3. split_and!; try done.
  - unfold D in Hv2. rewrite (half_spectrum l m Hm) in Hv2. destruct HF as (_ & HF2 & _). rewrite HF2, (dft_dft (-1) 1) in Hv2 by (auto || done).
    rewrite cpx_length in Hv2. unfold cpx in Hv2. rewrite !map_map in Hv2. erewrite map_ext; [exact Hv2|]. intros x. cbn. ring.
  - unfold vdomain. by rewrite N2.
Qed.

(** [sifft] scales with the number of points of the half spectrum. *)
Lemma csm_3 f : csm 3 f = cadd (cadd (cadd (0, 0) (f 0%nat)) (f 1%nat)) (f 2%nat). Proof. done. Qed.
Lemma dft_one : dft (-1) (cpx [1; 0; 0]) = [(1, 0); (1, 0); (1, 0)].
Proof.
  assert (E : forall k, (k < 3)%nat -> dft (-1) (cpx [1; 0; 0]) !! k = Some (1, 0)).
  { intros k Hk. rewrite dft_lookup by done. f_equal. change (length (cpx [1; 0; 0])) with 3%nat. rewrite csm_3. cbn [cpx map lookup list_lookup].
    change (default ?aa (Some ?bb)) with bb. replace (-1 * (Z.of_nat 0 * Z.of_nat k))%Z with 0%Z by lia. rewrite turn_0. ring. }
  apply list_eq. intros k. destruct (decide (k < 3)%nat) as [Hk|Hk].
  - rewrite E by done. destruct k as [|[|[|]]]; try done. lia.
  - rewrite !lookup_ge_None_2; [done | cbn; lia | rewrite dft_length; cbn; lia].
Qed.
Theorem sifft_scale_wrong r addr s sched sched' b (v : dvec R) b2 : aligned_all r addr ->
  reals v [1; 0; 0] -> number_space v = NReal -> domain v = DTime ->
  lends b v 12 -> spare b (2 * fft_inplace_scratch_len 6) ->
  exists v1 b1, sfft b v = Done (v1, b1, Ok tt) /\
    (lends b2 v1 6 -> spare b2 (2 * fft_inplace_scratch_len 3) ->
     exists v2 b3, sifft r addr s sched sched' b2 v1 = Done (v2, b3, Ok tt) /\ exists l, reals v2 l /\ l !! 0%nat = Some (3 / 2)).
Proof using HF.
  intros (Hr & Ha & Hh & Hp) Hv Hns Hdm Hb Hb2. destruct (sfft_half b v [1; 0; 0] Hv Hns Hdm eq_refl Hb Hb2) as (v1 & b1 & E1 & Hv1 & K1 & K2 & _).
  exists v1, b1. split; [done|]. intros Hbb Hbs. unfold sifft.
  change (map _ [1; 0; 0]) with (cpx [1; 0; 0]) in Hv1. rewrite dft_one in Hv1. assert (Hv1' : cplx v1 [(1, 0); (1, 0)]) by exact Hv1. clear Hv1. rename Hv1' into Hv1.
  rewrite (points_cplx v1 _ Hv1). cbn [length].
  destruct (scale_complex_spec r addr s sched (n1 / nofnat 2, n0)%num v1 _ Hr Ha ltac:(left; split; [done|]; by intros _) Hv1) as (v2 & -> & Hv2 & (M1 & M2 & M3) & R2).
  rewrite bind_Done. destruct (ifft_shift_cplx v2 _ Hv2 ltac:(done)) as (v3 & X & -> & Hv3 & [HlX RotX] & (N1 & N2 & N3) & R3). rewrite bind_Done.
  assert (Hsc : map (fun x : C => cmul x (n1 / nofnat 2, n0)%num) [(1, 0); (1, 0)] = [(1 / 2, 0); (1 / 2, 0)]).
  { cbn [map]. assert (E : cmul (1, 0) (n1 / nofnat 2, n0)%num = (1 / 2, 0) :> C); [|by rewrite E].
    unfold cmul. cbn. apply pair_equal_spec. split; lra. }
  rewrite Hsc in *. cbn [length] in *.
  assert (X = [(1 / 2, 0); (1 / 2, 0)]) as ->.
  { pose proof (RotX 0%nat ltac:(lia)) as X0. pose proof (RotX 1%nat ltac:(lia)) as X1. destruct X as [|x0 [|x1 [|]]]; try done. cbn in X0, X1. congruence. }
  destruct (plain_sifft_static Hli s sched' b2 v3 _ (1 / 2, 0) Hv3) as (v4 & b4 & E4 & Hv4 & _ & _).
  { by rewrite N3, M3. } { by rewrite N2, M2. } { done. }
  { cbn [snd nltb fabs Rnum Rrem]. rewrite Rabs_R0. apply Rltb_false. pose proof tolerance_pos. lra. }
  { cbn [length]. change (2 * (2 * 2 - 1))%nat with 6%nat. assert (Hal : alloc_len v3 = alloc_len v1).
    { transitivity (alloc_len v2); apply alloc_rest; try done; eapply vdata_fits; [apply Hv2 | apply Hv3 | apply Hv1 | apply Hv2]. }
    destruct b2; try done. cbn in *. rewrite Hal. done. }
  { done. }
  exists v4, b4. split; [done|]. eexists. split; [exact Hv4|].
  destruct HF as (_ & HF2 & _). rewrite HF2. cbn [tail map rev app]. change (map fst ?m) with (fst <$> m). rewrite list_lookup_fmap, dft_lookup by (cbn; lia). cbn [fmap option_fmap option_map].
  f_equal. cbn [length]. rewrite csm_3. cbn [lookup list_lookup]. change (default ?aa (Some ?bb)) with bb.
  replace (1 * (Z.of_nat 0 * Z.of_nat 0))%Z with 0%Z by lia. replace (1 * (Z.of_nat 1 * Z.of_nat 0))%Z with 0%Z by lia. replace (1 * (Z.of_nat 2 * Z.of_nat 0))%Z with 0%Z by lia.
  rewrite !turn_0. unfold conj1, cmul, cadd. cbn. lra.
Qed.
End real.
