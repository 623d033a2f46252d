(** What the interpolation theorems mean for the caller. *)
From Verif Require Import Proof_Base Proof_Vec Proof_Frame Proof_Window Proof_Dft Proof_Trig Proof_Exact Proof_Interpolate Proof_Interpolatei Proof_Interpolatef Proof_InterpolateSimd2 Proof_Dot Proof_InterpolateSimd Proof_PadB Proof_Convolve.
From Verif Require Import Spec_Interpolate NumsR.
From stdpp Require Import list_numbers.
Local Open Scope R_scope.
Local Notation C := (R * R)%type.

(** ** Interpolation in frequency domain *)
Section interpft.
Context `{F : Fft R} (HF : computes_dft).

Theorem interpft_cplx r addr s sc sch b (v : dvec R) c m : cplx v c -> c <> [] -> (0 < m)%nat -> aligned_all r addr -> lends b v (2 * Nat.max (length c) m) ->
  spare b (2 * fft_inplace_scratch_len (length c)) -> spare b (2 * fft_inplace_scratch_len m) ->
  exists v' b', interpft r addr s sc sch b v m = Done (v', b') /\ cplx v' (samples c (band m) m 0) /\
    delta v' = delta v * INR (length c) / INR m /\ number_space v' = number_space v /\ domain v' = domain v.
Proof using HF.
  intros Hv Hc Hm Hal Hb H1 H2. assert (Hn : (0 < length c)%nat) by (destruct c; [done | cbn; lia]). pose proof (Proof_Dft.INR_pos _ Hn). pose proof (Proof_Dft.INR_pos _ Hm).
  destruct (interpolate_cplx HF r addr s sc sch b v None c m 0) as (v' & b' & E & K1 & K2 & K3 & K4); try done; [by left|].
  exists v', b'. unfold interpft. change n0 with 0. rewrite E, bind_Done. split; [done|]. replace (0 / delta v) with 0 in K1 by (unfold Rdiv; ring). split; [exact K1|].
  rewrite K2. split; [field; lra | done].
Qed.
Theorem interpft_reals r addr s sc sch b (v : dvec R) l m : reals v l -> l <> [] -> (0 < m)%nat -> aligned_all r addr -> lends b v (2 * Nat.max (length l) m) ->
  spare b (2 * fft_inplace_scratch_len (length l)) -> spare b (2 * fft_inplace_scratch_len m) ->
  exists v' b', interpft r addr s sc sch b v m = Done (v', b') /\ reals v' (map fst (samples (map of_real l) (band m) m 0)) /\
    delta v' = delta v * INR (length l) / INR m /\ number_space v' = number_space v /\ domain v' = domain v.
Proof using HF.
  intros Hv Hc Hm Hal Hb H1 H2. assert (Hn : (0 < length l)%nat) by (destruct l; [done | cbn; lia]). pose proof (Proof_Dft.INR_pos _ Hn). pose proof (Proof_Dft.INR_pos _ Hm).
  destruct (interpolate_reals HF r addr s sc sch b v None l m 0) as (v' & b' & E & K1 & K2 & K3 & K4); try done; [by left|].
  exists v', b'. unfold interpft. change n0 with 0. rewrite E, bind_Done. split; [done|]. replace (0 / delta v) with 0 in K1 by (unfold Rdiv; ring). split; [exact K1|].
  rewrite K2. split; [field; lra | done].
Qed.
Theorem interpft_same_cplx r addr s sc sch b (v : dvec R) c : cplx v c -> c <> [] -> aligned_all r addr -> lends b v (2 * length c) ->
  spare b (2 * fft_inplace_scratch_len (length c)) ->
  exists v' b', interpft r addr s sc sch b v (length c) = Done (v', b') /\ cplx v' c /\ same_meta v v'.
Proof using HF.
  intros Hv Hc Hal Hb H1. assert (Hn : (0 < length c)%nat) by (destruct c; [done | cbn; lia]). pose proof (Proof_Dft.INR_pos _ Hn).
  destruct (interpft_cplx r addr s sc sch b v c (length c)) as (v' & b' & E & K1 & K2 & K3 & K4); try done; [by rewrite Nat.max_id|].
  exists v', b'. split; [done|]. rewrite samples_same in K1 by done. split; [done|]. unfold same_meta. rewrite K2, K3, K4. split; [field; lra | done].
Qed.
Theorem interpft_same_reals r addr s sc sch b (v : dvec R) l : reals v l -> l <> [] -> aligned_all r addr -> lends b v (2 * length l) ->
  spare b (2 * fft_inplace_scratch_len (length l)) ->
  exists v' b', interpft r addr s sc sch b v (length l) = Done (v', b') /\ reals v' l /\ same_meta v v'.
Proof using HF.
  intros Hv Hc Hal Hb H1. assert (Hn : (0 < length l)%nat) by (destruct l; [done | cbn; lia]). pose proof (Proof_Dft.INR_pos _ Hn).
  destruct (interpft_reals r addr s sc sch b v l (length l)) as (v' & b' & E & K1 & K2 & K3 & K4); try done; [by rewrite Nat.max_id|].
  exists v', b'. split; [done|]. pose proof (samples_same (map of_real l)) as Es. rewrite map_length in Es. rewrite Es in K1 by (by destruct l). rewrite map_map, map_id in K1.
  split; [done|]. unfold same_meta. rewrite K2, K3, K4. split; [field; lra | done].
Qed.
Lemma samples_exact a n m d : a <> [] -> length a = n -> samples (sampled (harmonics a (fun _ => 1)) n) (band m) m d = map (fun i => harmonics a (band m) (INR i * INR n / INR m + d)) (seq 0 m).
Proof using. clear. intros Ha <-. unfold samples. rewrite sampled_length. apply map_ext. intros i. by apply polynomial_exact. Qed.
Theorem interpft_exact_cplx r addr s sc sch b (v : dvec R) a m : cplx v (sampled (harmonics a (fun _ => 1)) (length a)) -> a <> [] -> (length a <= m)%nat -> aligned_all r addr ->
  lends b v (2 * m) -> spare b (2 * fft_inplace_scratch_len (length a)) -> spare b (2 * fft_inplace_scratch_len m) ->
  exists v' b', interpft r addr s sc sch b v m = Done (v', b') /\
    cplx v' (map (fun i => harmonics a (fun _ => 1) (INR i * INR (length a) / INR m)) (seq 0 m)).
Proof using HF.
  intros Hv Ha Hm Hal Hb H1 H2. assert (Hn : (0 < length a)%nat) by (destruct a; [done | cbn; lia]). set (c := sampled _ _) in *. assert (Hl : length c = length a) by apply sampled_length.
  destruct (interpft_cplx r addr s sc sch b v c m) as (v' & b' & E & K1 & _); rewrite ?Hl; try done; [intros Ec; rewrite Ec in Hl; cbn in Hl; lia | lia | by rewrite Nat.max_r by lia|].
  exists v', b'. split; [done|]. unfold c in K1. rewrite samples_exact in K1 by done.
  erewrite (map_ext_in _ (fun i => harmonics a (fun _ => 1) (INR i * INR (length a) / INR m))) in K1; [exact K1|]. intros i _. rewrite Rplus_0_r.
  unfold harmonics. change (series (0, 0) complex_sum) with csm. apply csm_ext. intros k Hk. by rewrite band_up.
Qed.

Theorem interpft_back_cplx r addr s sc sch b (v : dvec R) c m r2 addr2 s2 sc2 sch2 b2 : cplx v c -> c <> [] -> (length c <= m)%nat -> aligned_all r addr -> aligned_all r2 addr2 ->
  lends b v (2 * m) -> spare b (2 * fft_inplace_scratch_len (length c)) -> spare b (2 * fft_inplace_scratch_len m) ->
  (forall w, lends b2 w (2 * m)) -> spare b2 (2 * fft_inplace_scratch_len (length c)) -> spare b2 (2 * fft_inplace_scratch_len m) ->
  exists v1 b1 v' b', interpft r addr s sc sch b v m = Done (v1, b1) /\ points v1 = m /\ interpft r2 addr2 s2 sc2 sch2 b2 v1 (length c) = Done (v', b') /\ cplx v' c /\ same_meta v v'.
Proof using HF.
  intros Hv Hc Hm Hal Hal2 Hb H1 H2 Hb2 H3 H4. assert (Hn : (0 < length c)%nat) by (destruct c; [done | cbn; lia]). pose proof (Proof_Dft.INR_pos _ Hn). assert (0 < INR m) by (apply Proof_Dft.INR_pos; lia).
  destruct (interpft_cplx r addr s sc sch b v c m) as (v1 & b1 & E & K1 & K2 & K3 & K4); try done; [lia | by rewrite Nat.max_r|].
  assert (Hl : length (samples c (band m) m 0) = m) by apply samples_length.
  destruct (interpft_cplx r2 addr2 s2 sc2 sch2 b2 v1 _ (length c) K1) as (v' & b' & E' & J1 & J2 & J3 & J4); rewrite ?Hl; try done.
  { intros Ec. rewrite Ec in Hl. cbn in Hl. lia. } { rewrite Nat.max_l by lia. apply Hb2. }
  exists v1, b1, v', b'. split; [done|]. split; [by rewrite (points_cplx _ _ K1)|]. split; [done|]. rewrite there_and_back in J1 by done. split; [done|].
  unfold same_meta. rewrite J2, J3, J4, K2, K3, K4, Hl. split; [field; lra | done].
Qed.
Theorem interpft_back_reals r addr s sc sch b (v : dvec R) l m r2 addr2 s2 sc2 sch2 b2 : reals v l -> Nat.odd (length l) = true -> (length l <= m)%nat -> aligned_all r addr -> aligned_all r2 addr2 ->
  lends b v (2 * m) -> spare b (2 * fft_inplace_scratch_len (length l)) -> spare b (2 * fft_inplace_scratch_len m) ->
  (forall w, lends b2 w (2 * m)) -> spare b2 (2 * fft_inplace_scratch_len (length l)) -> spare b2 (2 * fft_inplace_scratch_len m) ->
  exists v1 b1 v' b', interpft r addr s sc sch b v m = Done (v1, b1) /\ points v1 = m /\ interpft r2 addr2 s2 sc2 sch2 b2 v1 (length l) = Done (v', b') /\ reals v' l /\ same_meta v v'.
Proof using HF.
  intros Hv Ho Hm Hal Hal2 Hb H1 H2 Hb2 H3 H4. assert (Hc : l <> []) by (by intros ->). assert (Hn : (0 < length l)%nat) by (destruct l; [done | cbn; lia]). pose proof (Proof_Dft.INR_pos _ Hn). assert (0 < INR m) by (apply Proof_Dft.INR_pos; lia).
  destruct (interpft_reals r addr s sc sch b v l m) as (v1 & b1 & E & K1 & K2 & K3 & K4); try done; [lia | by rewrite Nat.max_r|].
  assert (Hl : length (map fst (samples (map of_real l) (band m) m 0)) = m) by (rewrite map_length; apply samples_length).
  destruct (interpft_reals r2 addr2 s2 sc2 sch2 b2 v1 _ (length l) K1) as (v' & b' & E' & J1 & J2 & J3 & J4); rewrite ?Hl; try done.
  { intros Ec. rewrite Ec in Hl. cbn in Hl. lia. } { rewrite Nat.max_l by lia. apply Hb2. }
  exists v1, b1, v', b'. split; [done|]. split; [by rewrite (points_reals _ _ K1)|]. split; [done|]. rewrite there_and_back_real in J1 by done. split; [done|].
  unfold same_meta. rewrite J2, J3, J4, K2, K3, K4, Hl. split; [field; lra | done].
Qed.
End interpft.

Lemma samples_kept_real l K i : (0 < K)%nat -> (i < length l)%nat -> map fst (samples (map of_real l) (band (length l * K)) (length l * K) 0) !! (i * K)%nat = l !! i.
Proof.
  intros HK Hi. change (map fst ?x) with (fst <$> x). rewrite list_lookup_fmap. pose proof (samples_kept (map of_real l) K i) as E. rewrite map_length in E. rewrite E by done.
  change (map of_real l) with (of_real <$> l). rewrite list_lookup_fmap. by destruct (l !! i).
Qed.

(** A single point with a delay by half of the distance between two points *)
Lemma circle_mpi : circle (- PI) = (-1, 0).
Proof. unfold circle. by rewrite cos_neg, sin_neg, cos_PI, sin_PI, Ropp_0. Qed.
Lemma dft_single s x : dft s [x] = [x].
Proof.
  apply list_eq. intros [|i]; [|done]. rewrite dft_lookup by (cbn; lia). f_equal. cbn [length]. rewrite (csm_single 1 0) by lia. change (default ?aa ([x] !! 0%nat)) with x.
  replace (s * (Z.of_nat 0 * Z.of_nat 0))%Z with 0%Z by lia. rewrite turn_circle. replace (2 * PI * 0 / INR 1) with 0 by (cbn; field). rewrite circle_0. destruct x as [x y]. unfold cmul. cbn [fst snd]. cbn [nmul nsub nadd Rnum]. change ([(x, y)] !! 0%nat) with (Some (x, y)). do 2 f_equal; ring.
Qed.
Lemma delays_single : delays_to [(1, 0)] (1 / 2) (1 / 2) [(-1, 0)] 0.
Proof.
  split; [done|]. replace (Reqb (1 / 2) 0) with false by (unfold Reqb; destruct (Req_EM_T (1 / 2) 0); [lra | done]). rewrite phased_0, !dft_single.
  unfold delayed. change (imap ?ff [?aa]) with [ff 0%nat aa]. cbn [length]. f_equal. change (signed 1 0) with (-1)%Z. replace (2 * PI * -1 * (1 / 2) / INR 1) with (- PI) by (cbn; field).
  rewrite circle_mpi. unfold cmul. cbn. f_equal; ring.
Qed.

(** ** Interpolation with an impulse response *)
(** A function which is 1 at 0 and 0 at all other integers keeps the points. *)
Definition cardinal (h : R -> R) : Prop := forall z, h (IZR z) = if (z =? 0)%Z then 1 else 0.
Section kept.
Context {P : Type} (zero : P) (add mul : P -> P -> P) (from : R -> P) (M : comm_monoid add zero) (Hm0 : forall x, mul x zero = zero) (Hf0 : from 0 = zero) (Hf1 : forall x, mul x (from 1) = x).
Lemma series_only n k f : (k < n)%nat -> (forall i, (i < n)%nat -> i <> k -> f i = zero) -> series zero add n f = f k.
Proof using M.
  clear mul from Hm0 Hf0 Hf1. destruct M as (HA & HC & HZ). revert f. induction n as [|n IH]; intros f Hk Hf; [lia|]. rewrite series_S. destruct (decide (k = n)) as [->|Hne].
  - assert (E : series zero add n f = zero); [|by rewrite E, HC, HZ]. assert (Hf' : forall i, (i < n)%nat -> f i = zero) by (intros; apply Hf; lia).
    clear IH Hk Hf. induction n as [|n IH]; [done|]. rewrite series_S, IH, Hf' by (intros; try apply Hf'; lia). by rewrite HZ.
  - rewrite (Hf n) by lia. rewrite HZ. apply IH; [lia|]. intros i Hi. apply Hf. lia.
Qed.
Lemma weighted_at (x : list P) h lo c (q : Z) : cardinal h -> (lo <= q <= lo + 2 * Z.of_nat c)%Z -> weighted zero add mul from x h lo c (IZR q) = around zero x q.
Proof using M Hm0 Hf0 Hf1.
  intros Hh Hq. unfold weighted. rewrite (series_only _ (Z.to_nat (q - lo))).
  - replace (lo + Z.of_nat (Z.to_nat (q - lo)))%Z with q by lia. rewrite <- minus_IZR, Hh, Z.sub_diag. cbn. apply Hf1.
  - lia.
  - intros i Hi Hne. rewrite <- minus_IZR, Hh. destruct (Z.eqb_spec (lo + Z.of_nat i - q) 0); [lia|]. by rewrite Hf0, Hm0.
Qed.
Lemma weighted_simd_at (x : list P) h c K m q : (0 < K)%nat -> (0 < c)%nat -> cardinal h -> weighted_simd zero add mul from x h 0 c K m (q * K) = around zero x (Z.of_nat q).
Proof using M Hm0 Hf0 Hf1.
  intros HK Hc Hh. unfold weighted_simd. cbv zeta. pose proof (Proof_Dft.INR_pos K HK).
  assert (Et : INR (q * K) / INR K = IZR (Z.of_nat q)) by (rewrite mult_INR, <- INR_IZR_INZ; field; lra). rewrite Et.
  assert (Ef : Int_part (IZR (Z.of_nat q)) = Z.of_nat q) by (apply Proof_Interp.Int_part_unique; lra).
  assert (Ec : Rceil (IZR (Z.of_nat q)) = Z.of_nat q). { unfold Rceil. rewrite <- opp_IZR. rewrite (Proof_Interp.Int_part_unique _ (- Z.of_nat q)) by lra. lia. }
  assert (Ew : forall g lo, (forall y, g y = h y) -> weighted zero add mul from x g lo c (IZR (Z.of_nat q)) = weighted zero add mul from x h lo c (IZR (Z.of_nat q))).
  { intros g lo Eg. unfold weighted. apply series_ext. intros k Hk. by rewrite Eg. }
  destruct (_ || _).
  - rewrite Ew by (intros; f_equal; ring). rewrite Ef. apply weighted_at; [done | lia].
  - rewrite Ec. transitivity (weighted zero add mul from x (fun y => h (- y)) (Z.of_nat q - Z.of_nat c - 1) c (IZR (Z.of_nat q))).
    { unfold weighted. apply series_ext. intros k Hk. do 3 f_equal. ring. }
    apply weighted_at; [|lia]. intros z. rewrite <- opp_IZR, Hh. destruct (Z.eqb_spec (- z) 0), (Z.eqb_spec z 0); lia || done.
Qed.
End kept.

(** ** Findings about the algorithm with SIMD registers *)
Lemma bind_panics {Q U} (m : run Q) (k : Q -> run U) : (forall x, k x = Panicked) -> (x ← m; k x) = Panicked.
Proof. intros Hk. destruct m; [apply Hk | done]. Qed.
(** With few points there is nothing between the two ends, and the range between them is invalid. *)
Theorem interpolatef_simd_panics (h : response R R) delay c0 K r addr s sched b (v : dvec R) x : (0 < K)%nat -> aligned_all r addr -> reals v x ->
  let c := half_at_most (length x) c0 in let M := (length x * K + (length x * K) mod 2)%nat in
  (c <= 202)%nat -> (2000 <= M)%nat -> (M < 2 * ((2 * c + 1) * K))%nat -> lends b v M ->
  interpolatef h (INR K) delay c0 r addr s sched b v = Panicked.
Proof.
  intros HK Hal Hv c M Hc H2 Hsz Hb. destruct Hal as (Hro & Ha & Hh & _).
  rewrite (interpolatef_simd_chosen h delay c0 K r addr s sched b v (length x * K)); [|done|by rewrite (reals_len _ _ (proj2 Hv))|by rewrite (points_reals v x Hv)|done].
  rewrite (proj1 Hv), (points_reals v x Hv). fold c M. set (d := delay / delta v). set (g := r_calc h). unfold interpolate_simd.
  destruct (borrow_lends n0 b v M Hb) as (temp & -> & Ht). rewrite bind_Done.
  destruct (all_done_ex (fun shift => function_to_vector g c false (INR shift / INR K) d) (fun j u => reals u (map (tap g c (INR j / INR K) d) (seq 0 (2 * c + 1)))) (seq 0 K)) as (vectors & Evec & Hvec).
  { intros j _. apply function_to_vector_real. }
  rewrite (proj1 Hv). unfold function_to_vectors. cbn [nofnat ndiv Rnum]. rewrite Evec, bind_Done. apply bind_panics. intros copies.
  rewrite (slice_Done temp 0 M) by lia. rewrite bind_Done, drop_0, Nat.sub_0_r, take_ge by lia. unfold as_reals. rewrite bind_Done.
  destruct (Forall2_lookup_l _ _ _ 0%nat 0%nat Hvec) as (u & Hu & Hu'); [by apply lookup_seq_lt|].
  assert (Er : rd vectors 0 = Done u) by (by apply rd_Done). rewrite Er, bind_Done. rewrite (points_reals u _ Hu'), map_length, seq_length. rewrite Ht. cbv zeta.
  do 2 (apply bind_panics; intros ?). apply bind_panics; intros ?. apply bind_panics; intros [? ?]. do 3 (apply bind_panics; intros ?).
  destruct (decide ((2 * c + 1) * K <= M)%nat).
  - rewrite usub_Done by done. rewrite bind_Done. unfold slice. destruct (Nat.leb_spec ((2 * c + 1) * K) (M - (2 * c + 1) * K)); [lia|]. done.
  - unfold usub. destruct (Nat.leb_spec ((2 * c + 1) * K) M); [lia|]. done.
Qed.

(** The delay has the wrong sign between the two ends. *)
Definition impulse : response R R := Response true (fun y => if Req_EM_T y 0 then 1 else 0).
Lemma impulse_cardinal : cardinal (r_calc impulse).
Proof. intros z. cbn. destruct (Req_EM_T (IZR z) 0) as [E|E], (Z.eqb_spec z 0) as [E'|E']; try done; exfalso; [apply E'; by apply eq_IZR | apply E; by rewrite E']. Qed.
Theorem interpolatef_simd_delay r addr s sched b (v : dvec R) x : aligned_all r addr -> (reg_len r <= 8)%nat -> reals v x -> (length x = 2 * 1000)%nat -> delta v = 1 -> lends b v (2 * 1000) ->
  exists v' b' y, interpolatef impulse 1 1 10 r addr s sched b v = Done (v', b') /\ reals v' y /\ y !! 0%nat = x !! (1000 + 999)%nat /\ y !! 1000%nat = x !! 1001%nat.
Proof.
  intros Hal Hr Hv Hl Hd Hb. assert (Hc : half_at_most (length x) 10 = 10%nat). { rewrite Hl. unfold half_at_most. rewrite Nat.mul_comm, Nat.div_mul by lia. lia. }
  assert (EM : (length x * 1 + (length x * 1) mod 2)%nat = (2 * 1000)%nat). { rewrite Nat.mul_1_r, Hl. rewrite (Nat.mul_comm 2 1000), Nat.mod_mul by lia. lia. }
  destruct (interpolatef_simd_reals impulse 1 10 1 r addr s sched b v ltac:(lia) Hal x Hv) as (v' & b' & E & _ & Hy); rewrite ?Hc, ?EM; try lia; try done.
  rewrite Hc, EM, Hd in Hy. eexists v', b', _. split; [exact E|]. split; [exact Hy|].
  assert (Hm : forall i, (i < 2 * 1000)%nat -> map (weighted_simd 0 Rplus Rmult (fun y => y) x (r_calc impulse) (1 / 1) 10 1 (2 * 1000)) (seq 0 (2 * 1000)) !! i =
     Some (weighted_simd 0 Rplus Rmult (fun y => y) x (r_calc impulse) (1 / 1) 10 1 (2 * 1000) i)).
  { intros i Hi. change (map ?ff ?l) with (ff <$> l). by rewrite list_lookup_fmap, lookup_seq_lt. }
  assert (Hat : forall k, (k < 2 * 1000)%nat -> Some (around 0 x (Z.of_nat k)) = x !! k).
  { intros k Hk. unfold around. rewrite circular_small by lia. rewrite Nat2Z.id. destruct (lookup_lt_is_Some_2 x k) as [y ->]; [lia|]. done. }
  assert (Hone : forall i, INR i / INR 1 = IZR (Z.of_nat i)) by (intros i; rewrite <- INR_IZR_INZ; cbn; field).
  assert (Hfl : forall z, Int_part (IZR z) = z) by (intros z; apply Proof_Interp.Int_part_unique; lra).
  assert (Hce : forall z, Rceil (IZR z) = z) by (intros z; unfold Rceil; rewrite <- opp_IZR, Hfl; lia).
  assert (Hwa := weighted_at 0 Rplus Rmult (fun y => y) (real_monoid R_exact) (fun y => Rmult_0_r y) eq_refl (fun y => Rmult_1_r y) x).
  rewrite !Hm by lia. rewrite <- !Hat by lia. unfold weighted_simd. cbv zeta. rewrite !Hone, !Hfl, !Hce. split; f_equal.
  - rewrite (proj2 (Nat.ltb_lt 0 _)) by lia. cbn [orb]. transitivity (weighted 0 Rplus Rmult (fun y => y) x (r_calc impulse) (Z.of_nat 0 - Z.of_nat 10 + 1) 10 (IZR (-1))).
    + unfold weighted. apply series_ext. intros k Hk. f_equal. f_equal. change (IZR (Z.of_nat 0)) with 0. lra.
    + rewrite Hwa; [|apply impulse_cardinal|lia]. unfold around. do 2 f_equal. unfold circular. rewrite Hl. symmetry. f_equal.
  - rewrite (proj2 (Nat.ltb_ge 1000 _)) by lia. rewrite (proj2 (Nat.leb_gt _ 1000)) by lia. cbn [orb].
    transitivity (weighted 0 Rplus Rmult (fun y => y) x (r_calc impulse) (Z.of_nat 1000 - Z.of_nat 10 - 1) 10 (IZR (Z.of_nat 1001))).
    + unfold weighted. apply series_ext. intros k Hk. f_equal. cbn [r_calc impulse]. set (p := IZR (_ + _)). replace (IZR (Z.of_nat 1001)) with (IZR (Z.of_nat 1000) + 1) by (rewrite <- plus_IZR; f_equal; lia).
      destruct (Req_EM_T (1 / 1 - (p - IZR (Z.of_nat 1000))) 0), (Req_EM_T (p - (IZR (Z.of_nat 1000) + 1)) 0); done || lra.
    + apply Hwa; [apply impulse_cardinal | lia].
Qed.

(** ** Findings about the bins of a frequency response *)
Lemma csm_reals (q : nat -> R) m : csm m (fun p => (q p, 0)) = (fold_right Rplus 0 (map q (seq 0 m)), 0).
Proof.
  assert (E1 : forall l x, fold_right Rplus 0 (l ++ [x]) = fold_right Rplus 0 l + x) by (clear; intros l x; induction l as [|a l IH]; cbn; [ring | rewrite IH; ring]).
  induction m as [|m IH]; [done|]. rewrite csm_S, IH, seq_S, map_app. cbn [map]. rewrite E1. unfold cadd. cbn. f_equal. ring.
Qed.
Lemma with_images_single (g : Z -> R) m : with_images [(1, 0)] g m 0 = (fold_right Rplus 0 (map (fun p => g (frequency m p)) (seq 0 m)), 0).
Proof.
  unfold with_images. cbn [length]. cbv zeta. rewrite dft_single. change (series (0, 0) complex_sum) with csm. change complex_product with (@cmul R _).
  rewrite (csm_ext m _ (fun p => (g (frequency m p), 0))).
  - rewrite (csm_reals (fun p => g (frequency m p))). unfold cmul. cbn [fst snd]. replace (1 / INR 1) with 1 by (cbn; field). cbn. f_equal; ring.
  - intros p Hp. rewrite Nat.mod_1_r. change (default ?aa ([?bb] !! 0%nat)) with bb. replace (2 * PI * IZR (frequency m p) * 0 / INR 1) with 0 by (unfold Rdiv; ring). rewrite circle_0. ring.
Qed.
Lemma samples_with_images_first c g K : (0 < K)%nat -> c <> [] -> samples_with_images c g K !! 0%nat = Some (with_images c g (length c * K) 0).
Proof.
  intros HK Hc. unfold samples_with_images. change (map ?ff ?l) with (ff <$> l). rewrite list_lookup_fmap, lookup_seq_lt by (destruct c; [done | cbn; lia]). cbn [fmap option_fmap option_map Nat.add].
  f_equal. f_equal. change (INR 0) with 0. unfold Rdiv. ring.
Qed.
