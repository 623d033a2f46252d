(** Convolution with a function: the path which samples the function and calls [convolve_signal]. *)
From Verif Require Export Proof_OverlapV Spec_ConvFn.
From stdpp Require Import list_numbers.
Local Open Scope nat_scope.

Section taps.
Context {A : Type} `{Num A}.
(** Every second element is a value of the function. *)
Lemma taps_loop (f : A -> A) ri L pts :
  exists i j l, while_ (pts + 1) (fun '(i, _, _) => i <? pts) (fun '(i, j, l) => l ← wr l i (f (j * ri)%num); Done (i + 2, (j + n1)%num, l))
    (0, nopp (nofnat L), replicate pts n0) = Done (i, j, l) /\ length l = pts /\
    forall i, i < pts -> l !! i = Some (if Nat.even i then f (counted L (i / 2) * ri)%num else n0).
Proof.
  match goal with |- context [while_ ?aa ?bb ?cc ?dd] => destruct (while_inv
    (fun '(i, j, l) => exists t, i = 2 * t /\ i <= pts + 1 /\ j = counted L t /\ length l = pts /\
       forall q, q < pts -> l !! q = Some (if (q <? i) && Nat.even q then f (counted L (q / 2) * ri)%num else n0))
    (fun '(i, _, _) => pts - i) aa bb cc dd) as ([[i j] l] & E & (t & Hi & Hp & Hj & Hl & Hq) & Hc) end.
  - exists 0. split_and!; try done; [lia | by rewrite replicate_length |]. intros q Hq. rewrite lookup_replicate_2 by done. done.
  - cbn. lia.
  - intros [[i j] l] (t & -> & Hp & -> & Hl & Hq) Hc. apply Nat.ltb_lt in Hc. rewrite wr_Done by lia. rewrite bind_Done. eexists. split; [done|]. split; [|lia].
    exists (t + 1). split_and!; try lia.
    + rewrite Nat.add_1_r. done.
    + by rewrite insert_length.
    + intros q Hqp. destruct (decide (q = 2 * t)) as [->|Hne].
      * rewrite list_lookup_insert by lia. rewrite (proj2 (Nat.ltb_lt (2 * t) (2 * t + 2))) by lia. by rewrite even_double, Proof_SimdOps.div2_double.
      * rewrite list_lookup_insert_ne by done. rewrite Hq by done. f_equal.
        destruct (Nat.even q) eqn:Ee; [|by rewrite !andb_false_r]. rewrite !andb_true_r. apply Nat.even_spec in Ee as (q' & ->).
        destruct (2 * q' <? 2 * t) eqn:E1; [apply Nat.ltb_lt in E1; by rewrite (proj2 (Nat.ltb_lt _ _)) by lia | apply Nat.ltb_ge in E1; by rewrite (proj2 (Nat.ltb_ge _ _)) by lia].
  - exists i, j, l. split; [done|]. split; [done|]. intros q Hqp. rewrite Hq by done. apply Nat.ltb_ge in Hc. by rewrite (proj2 (Nat.ltb_lt q i)) by lia.
Qed.

Lemma taps_points (f : A -> A) ri L K l : length l = 2 * K -> (forall i, i < 2 * K -> l !! i = Some (if Nat.even i then f (counted L (i / 2) * ri)%num else n0)) ->
  l = complex_to_array (map (fun t => (f (counted L t * ri)%num, n0)) (seq 0 K)).
Proof.
  intros Hl Hi. apply list_eq. intros i. destruct (decide (i < 2 * K)) as [Hlt|Hge].
  2:{ rewrite !lookup_ge_None_2; try done; [rewrite complex_to_array_length, map_length, seq_length; lia | lia]. }
  rewrite Hi by done.
  assert (Hs : forall k, k < K -> map (fun t => (f (counted L t * ri)%num, n0)) (seq 0 K) !! k = Some (f (counted L k * ri)%num, n0)).
  { intros k Hk. change (map ?g ?l) with (g <$> l). rewrite list_lookup_fmap, lookup_seq_lt by done. done. }
  destruct (Nat.even i) eqn:Ee.
  - apply Nat.even_spec in Ee as (k & ->). rewrite (proj1 (complex_to_array_lookup _ k)), Hs by lia. by rewrite Proof_SimdOps.div2_double.
  - assert (Nat.odd i = true) as (k & ->)%Nat.odd_spec by (by rewrite <- Nat.negb_even, Ee).
    rewrite (proj2 (complex_to_array_lookup _ k)), Hs by lia. done.
Qed.
End taps.

Lemma csm_rev n (f : nat -> R * R) : csm n f = csm n (fun i => f (n - 1 - i)).
Proof.
  revert f. induction n as [|n IH]; intros f; [done|].
  rewrite csm_S. symmetry. replace (S n) with (1 + n) at 1 by lia. rewrite csm_split.
  rewrite (IH f). rewrite csm_S, csm_0.
  rewrite (csm_ext n (fun i => f (S n - 1 - (1 + i))) (fun i => f (n - 1 - i))) by (intros i Hi; f_equal; lia).
  replace (S n - 1 - 0) with n by lia. generalize (csm n (fun i => f (n - 1 - i))), (f n). intros [a1 a2] [b1 b2]. unfold cadd. cbn. f_equal; ring.
Qed.

Lemma counted_R L t : counted L t = (INR t - INR L)%R.
Proof.
  induction t as [|t IH]; [cbn; lra|]. change (counted L (S t)) with (counted L t + 1)%R. rewrite IH, S_INR. lra.
Qed.

(** Sampling the function and convolving with the samples is convolving with the function. *)
Lemma sampled_function (f : R -> R * R) ratio L (x : list (R * R)) :
  centred_convolution (0, 0)%R cadd cmul x (sampled_response f ratio L (2 * L + 1)) =
  function_convolution (0, 0)%R cadd cmul counted f (1 / ratio)%R L x.
Proof.
  unfold centred_convolution, circular_convolution, function_convolution, sampled_response. rewrite map_length, seq_length. apply map_ext. intros i.
  change (csm (2 * L + 1) (fun k => cmul (around (0, 0)%R x (Z.of_nat i + Z.of_nat ((2 * L + 1 + 1) / 2) - 1 - Z.of_nat k)) (default (0, 0)%R (map (fun t => f ((INR t - INR L) * (1 / ratio))%R) (seq 0 (2 * L + 1)) !! k))) =
    csm (2 * L + 1) (fun t => cmul (around (0, 0)%R x (Z.of_nat i + Z.of_nat t - Z.of_nat L)) (f (nopp (counted L t) * (1 / ratio)%R)%num))).
  rewrite csm_rev. apply csm_ext. intros t Ht. f_equal.
  - f_equal. replace ((2 * L + 1 + 1) / 2) with (L + 1) by (apply (Nat.div_unique _ 2 _ 0); lia). lia.
  - change (map ?g ?l) with (g <$> l). rewrite list_lookup_fmap, lookup_seq_lt by lia. cbn [fmap option_fmap option_map default]. unfold id.
    f_equal. rewrite !counted_R. cbn [nmul nopp Rnum]. rewrite Nat.add_0_l, !minus_INR, plus_INR, mult_INR by lia. cbn [INR]. unfold Datatypes.id. f_equal. cbn. lra.
Qed.
(** The loop over the samples of a complex function *)
Definition scatter (f : R -> R * R) (ratio : R) (n : nat) : nat * R * list R -> run (nat * R * list R) := fun '(i, j, l) =>
  let value := f (j * (1 / ratio)%R)%num in
  _ ← slice l 0 n; l ← wr l i (fst value); _ ← slice l 0 n; l ← wr l (i + 2) (snd value); Done (i + 3, (j + n1)%num, l).
Definition upto (n : nat) : nat * R * list R -> bool := fun '(i, _, _) => i <? n.
Lemma scatter_step f ratio n i j l : n <= length l -> i + 2 < length l ->
  scatter f ratio n (i, j, l) = Done (i + 3, (j + n1)%num, <[i + 2 := snd (f (j * (1 / ratio))%R)]> (<[i := fst (f (j * (1 / ratio))%R)]> l)).
Proof.
  intros Hn Hi. unfold scatter. cbv zeta. rewrite (slice_Done l 0 n), bind_Done by lia. rewrite (wr_Done l i), bind_Done by lia.
  rewrite slice_Done, bind_Done by (rewrite ?insert_length; lia). rewrite wr_Done, bind_Done by (rewrite ?insert_length; lia). done.
Qed.
Lemma scattered_loop (f : R -> R * R) ratio L n size : 3 * ((n + 2) / 3) <= size ->
  exists i j l, while_ (n + 1) (upto n) (scatter f ratio n) (0, nopp (nofnat L), replicate size (n0 : R)) = Done (i, j, l) /\ length l = size /\
    take n l = scattered_response f ratio L n.
Proof.
  intros Hs. pose proof (Nat.div_mod (n + 2) 3 ltac:(lia)) as Ed. pose proof (Nat.mod_upper_bound (n + 2) 3 ltac:(lia)) as Em.
  set (at_pos := fun i : nat => let value := f ((INR (i / 3) - INR L) * (1 / ratio))%R in match i mod 3 with 0 => fst value | 1 => 0%R | _ => snd value end).
  match goal with |- context [while_ ?aa ?bb ?cc ?dd] => destruct (while_inv
    (fun '(i, j, l) => exists t, i = 3 * t /\ i <= 3 * ((n + 2) / 3) /\ j = (INR t - INR L)%R /\ length l = size /\
       forall q, q < size -> l !! q = Some (if q <? i then at_pos q else 0%R))
    (fun '(i, _, _) => n - i) aa bb cc dd) as ([[i j] l] & E & (t & Hi & Hp & Hj & Hl & Hq) & Hc) end.
  - exists 0. split_and!; try done; [lia | cbn; lra | by rewrite replicate_length |]. intros q Hq. by rewrite lookup_replicate_2 by done.
  - cbn. lia.
  - intros [[i j] l] (t & -> & Hp & -> & Hl & Hq) Hc. cbn in Hc. apply Nat.ltb_lt in Hc.
    assert (Hnx : 3 * (t + 1) <= 3 * ((n + 2) / 3)) by (assert ((n + 2) / 3 <= t \/ t < (n + 2) / 3) as [?|?] by lia; lia).
    rewrite scatter_step by lia. eexists. split; [done|]. split; [|lia].
    exists (t + 1). split_and!; try lia.
    + rewrite plus_INR. cbn. lra.
    + by rewrite !insert_length.
    + intros q Hqs.
      assert (Hd : forall u, u < 3 -> (3 * t + u) / 3 = t /\ (3 * t + u) mod 3 = u).
      { intros u Hu. split; [symmetry; apply (Nat.div_unique _ 3 t u); lia | symmetry; apply (Nat.mod_unique _ 3 t u); lia]. }
      destruct (decide (q = 3 * t + 2)) as [->|H2].
      { rewrite list_lookup_insert by (rewrite insert_length; lia). rewrite (proj2 (Nat.ltb_lt (3 * t + 2) (3 * t + 3))) by lia. unfold at_pos. by destruct (Hd 2) as [-> ->]; [lia|]. }
      rewrite list_lookup_insert_ne by lia. destruct (decide (q = 3 * t)) as [->|H0].
      { rewrite list_lookup_insert by lia. rewrite (proj2 (Nat.ltb_lt (3 * t) (3 * t + 3))) by lia. unfold at_pos. destruct (Hd 0) as [E1 E2]; [lia|]. rewrite Nat.add_0_r in E1, E2. by rewrite E1, E2. }
      rewrite list_lookup_insert_ne by lia. rewrite Hq by done. f_equal. destruct (Nat.ltb_spec q (3 * t)), (Nat.ltb_spec q (3 * t + 3)); try lia; try done.
      assert (q = 3 * t + 1) as -> by lia. unfold at_pos. by destruct (Hd 1) as [-> ->]; [lia|].
  - exists i, j, l. split; [exact E|]. split; [done|]. cbn in Hc. apply Nat.ltb_ge in Hc. assert (Hns : n <= size) by lia.
    apply list_eq. intros q. unfold scattered_response. destruct (decide (q < n)) as [Hqn|Hqn].
    2: { rewrite !lookup_ge_None_2; [done | rewrite map_length, seq_length; lia | rewrite take_length; lia]. }
    rewrite lookup_take by done. rewrite Hq by lia. rewrite (proj2 (Nat.ltb_lt q i)) by lia.
    change (map ?g ?x) with (g <$> x). rewrite list_lookup_fmap, lookup_seq_lt by done. done.
Qed.
Lemma scattered_panics (f : R -> R * R) ratio n size : 0 < n -> size < 3 * ((n + 2) / 3) -> forall fuel t j l, length l = size -> 3 * t < n -> n - 3 * t < fuel ->
  while_ fuel (upto n) (scatter f ratio n) (3 * t, j, l) = Panicked.
Proof.
  intros Hn Hs. pose proof (Nat.div_mod (n + 2) 3 ltac:(lia)) as Ed. pose proof (Nat.mod_upper_bound (n + 2) 3 ltac:(lia)) as Em.
  induction fuel as [|fuel IH]; intros t j l Hl Ht Hf; [lia|]. cbn [while_]. change (upto n (3 * t, j, l)) with (3 * t <? n). rewrite (proj2 (Nat.ltb_lt _ _) Ht).
  destruct (decide (n <= size)) as [Hns|Hns].
  2: { unfold scatter. cbv zeta. assert (E : slice l 0 n = Panicked) by (unfold slice; rewrite (proj2 (Nat.leb_gt n (length l))) by lia; by rewrite andb_false_r). by rewrite E. }
  destruct (decide (3 * t + 2 < size)) as [Hw|Hw].
  - rewrite scatter_step by lia. rewrite bind_Done. replace (3 * t + 3) with (3 * (t + 1)) by lia. apply IH; [by rewrite !insert_length | | lia].
    assert ((n + 2) / 3 <= t + 1 \/ t + 1 < (n + 2) / 3) as [K|K] by lia; lia.
  - unfold scatter. cbv zeta. rewrite (slice_Done l 0 n), bind_Done by lia. rewrite (wr_Done l (3 * t)), bind_Done by lia.
    rewrite slice_Done, bind_Done by (rewrite ?insert_length; lia).
    match goal with |- context [wr ?ll ?ii ?xx] => assert (E : wr ll ii xx = Panicked) end.
    { unfold wr. rewrite (proj2 (Nat.ltb_ge _ _)); [done | rewrite insert_length; lia]. }
    by rewrite E.
Qed.
Section real.
Context `{F : Fft R} (HF : computes_dft).
Context (round : R -> R) (to_usize : R -> option nat) (fits : nat -> bool).


(** Not in the time domain: the vector becomes invalid *)
Lemma convolve_real_response_freq r addr s sched b (v : dvec R) f ratio L : vdomain v <> Time ->
  convolve_real_response round to_usize fits f ratio L r addr s sched b v = Done (mark_vector_as_invalid v, b).
Proof using round to_usize fits. intros Hd. unfold convolve_real_response. by destruct (vdomain v). Qed.
Lemma convolve_complex_response_invalid r addr s sched b (v : dvec R) f ratio L : vdomain v <> Time \/ is_complex v = false ->
  convolve_complex_response round to_usize fits f ratio L r addr s sched b v = Done (mark_vector_as_invalid v, b).
Proof using round to_usize fits. intros [Hd|Hd]; unfold convolve_complex_response; [destruct (is_complex v); [by destruct (vdomain v) | done] | by rewrite Hd]. Qed.

Lemma benefits n L ratio : would_benefit_from_simd round n L ratio = true <-> 20 * 100 < n /\ L <= 202 /\ whole_inverse round ratio.
Proof using round to_usize fits.
  unfold would_benefit_from_simd, whole_inverse; cbv zeta. rewrite !andb_true_iff, Nat.ltb_lt, Nat.leb_le.
  cbn [nsub ndiv nmul n1 nofnat nltb Rnum fabs Rflt Rrem]. rewrite !Rltb_true.
  replace (INR 10) with 10%R by (cbn; lra). replace (INR 2) with 2%R by (cbn; lra).
  replace (1 / (10 * 10 * 10 * 10 * 10 * 10))%R with (1 / 10 ^ 6)%R by (cbn; field). tauto || (split; intros; split_and!; lia || tauto).
Qed.
Lemma no_benefit n L ratio : n <= 20 * 100 \/ 202 < L \/ ~ whole_inverse round ratio -> would_benefit_from_simd round n L ratio = false.
Proof using round to_usize fits.
  intros Hn. destruct (would_benefit_from_simd round n L ratio) eqn:E; [|done]. apply benefits in E as (E1 & E2 & E3). destruct Hn as [?|[?|?]]; [lia | lia | done].
Qed.

(** Any ratio: short vectors and long responses take the path of the definition, and all which have no whole inverse ratio. *)
Theorem convolve_real_response_scalar r addr s sched b (v : dvec R) f ratio L k : vdomain v = Time -> to_usize ratio = Some k ->
  len v <= 20 * 100 \/ 202 < L \/ ~ whole_inverse round ratio ->
  (forall x, reals v x -> lends b v (length x) -> exists v' b', convolve_real_response round to_usize fits f ratio L r addr s sched b v = Done (v', b') /\
     same_meta v v' /\ reals v' (function_convolution n0 nadd nmul counted f ratio (Nat.min L (length x)) x)) /\
  (forall x, cplx v x -> lends b v (2 * length x) -> exists v' b', convolve_real_response round to_usize fits f ratio L r addr s sched b v = Done (v', b') /\
     same_meta v v' /\ cplx v' (function_convolution (n0, n0) complex_sum complex_product counted (fun x => (f x, n0)) ratio (Nat.min L (length x)) x)).
Proof using round to_usize fits.
  intros Hd Hu Hl. unfold convolve_real_response, calc_points. rewrite Hd, Hu. cbn [ddomain_eqb negb]. cbv zeta. rewrite (no_benefit _ _ _ Hl). split; intros x Hx Hb; rewrite bind_Done, (proj1 Hx); cbn [andb].
  - by apply convolve_function_reals.
  - by apply convolve_function_cplx.
Qed.
Theorem convolve_complex_response_scalar r addr s sched b (v : dvec R) f ratio L k x : vdomain v = Time -> to_usize ratio = Some k ->
  len v <= 20 * 100 \/ 202 < L \/ ~ whole_inverse round ratio -> cplx v x -> lends b v (2 * length x) ->
  exists v' b', convolve_complex_response round to_usize fits f ratio L r addr s sched b v = Done (v', b') /\
     same_meta v v' /\ cplx v' (function_convolution (n0, n0) complex_sum complex_product counted f ratio (Nat.min L (length x)) x).
Proof using round to_usize fits.
  intros Hd Hu Hl Hx Hb. unfold convolve_complex_response, calc_points. rewrite Hd, Hu, (proj1 Hx). cbn [ddomain_eqb negb]. cbv zeta. rewrite (no_benefit _ _ _ Hl), bind_Done. cbn [andb].
  by apply convolve_function_cplx.
Qed.

(** The sampled path, complex vectors *)
Theorem convolve_real_response_sampled r addr s sched b (v : dvec R) f ratio L K x : aligned_all r addr -> reg_len r <= 64 -> vdomain v = Time -> cplx v x -> delta v <> 0%R ->
  20 * 100 < len v -> L <= 202 -> whole_inverse round ratio -> to_usize ratio = Some K -> (forall n, fits n = true) ->
  let m := (2 * L + 1) * K in
  (length x < m -> convolve_real_response round to_usize fits f ratio L r addr s sched b v = Panicked) /\
  (m <= length x -> lends b v (2 * length x) -> overlap_room b (length x) m -> ~ (512 < m /\ 10 * m < length x < 15 * m) ->
   exists v' b', convolve_real_response round to_usize fits f ratio L r addr s sched b v = Done (v', b') /\
     same_meta v v' /\ cplx v' (centred_convolution (n0, n0) complex_sum complex_product x (sampled_response (fun t => (f t, n0)) ratio L m))).
Proof using HF fits.
  intros Hal Hr2 Hd Hv Hdl Hn HL Hw Husize Hfits m. unfold convolve_real_response, calc_points. rewrite Hd, Husize, (proj1 Hv). cbn [ddomain_eqb negb]. cbv zeta.
  rewrite bind_Done, (proj2 (benefits _ _ _)), Hfits by done. cbn [andb].
  assert (Hlx : 10 * 100 < length x) by (rewrite (reals_len v _ (proj2 Hv)), complex_to_array_length in Hn; lia).
  set (pts := 2 * (2 * L + 1) * K). destruct (taps_loop f (n1 / ratio)%num L pts) as (i & j & l & E & Hl & Hi). rewrite E, bind_Done. clear E.
  assert (Ep : pts = 2 * m) by (unfold pts, m; lia). rewrite Ep in Hl, Hi. pose proof (taps_points f (n1 / ratio)%num L m l Hl Hi) as El.
  assert (Eh : map (fun t => (f (counted L t * (n1 / ratio))%num, n0)) (seq 0 m) = sampled_response (fun t => (f t, n0)) ratio L m).
  { unfold sampled_response. apply map_ext. intros t. by rewrite counted_R. }
  rewrite Eh in El. set (h := sampled_response _ _ _ _) in *. assert (Hlh : length h = m) by (unfold h, sampled_response; by rewrite map_length, seq_length).
  set (o := DVec _ _ _ _ _).
  assert (Ho : cplx o h). { split; [exact (proj1 Hv)|]. apply (vdata_intro o (complex_to_array h) []); [change (elems o) with l; by rewrite app_nil_r | change (valid_len o) with pts; by rewrite complex_to_array_length, Hlh]. }
  assert (Hm : meta_agree v o) by (split_and!; try done; change (delta o) with (delta v); cbn [nltb ndiv nofnat Rnum]; by apply same_ratio).
  split.
  - intros Hshort. rewrite (proj2 (proj2 (convolve_signal_errors r addr s sched b v o)) Hm Hd), bind_Done; [done|]. by rewrite (points_cplx v x Hv), (points_cplx o h Ho), Hlh.
  - intros Hlong Hb Hroom Hgap. destruct (convolve_signal_cplx HF r addr s sched b v o x h Hal Hr2 Hv Ho) as (v' & b' & -> & Hv' & Hmeta).
    + intros _. change (alloc_len o) with (length l). rewrite Hl. apply even_double.
    + done.
    + done.
    + lia.
    + done.
    + by rewrite Hlh.
    + left. intros ->. cbn in Hlx. lia.
    + by rewrite Hlh.
    + rewrite bind_Done. exists v', b'. done.
Qed.

(** The sampled path with a complex response *)
Theorem convolve_complex_response_sampled r addr s sched b (v : dvec R) f ratio L K x : aligned_all r addr -> reg_len r <= 64 -> vdomain v = Time -> cplx v x -> delta v <> 0%R ->
  20 * 100 < len v -> L <= 202 -> whole_inverse round ratio -> to_usize ratio = Some K -> (forall n, fits n = true) ->
  (4 * (2 * L + 1) * K < 3 * ((2 * length x + 2) / 3) -> convolve_complex_response round to_usize fits f ratio L r addr s sched b v = Panicked) /\
  (3 * ((2 * length x + 2) / 3) <= 4 * (2 * L + 1) * K -> lends b v (2 * length x) -> overlap_room b (length x) (length x) ->
   exists v' b' h, convolve_complex_response round to_usize fits f ratio L r addr s sched b v = Done (v', b') /\
     same_meta v v' /\ complex_to_array h = scattered_response f ratio L (2 * length x) /\ cplx v' (centred_convolution (n0, n0) complex_sum complex_product x h)).
Proof using HF fits.
  intros Hal Hr2 Hd Hv Hdl Hn HL Hw Husize Hfits. unfold convolve_complex_response, calc_points. rewrite Hd, Husize, (proj1 Hv). cbn [ddomain_eqb negb]. cbv zeta.
  rewrite bind_Done, (proj2 (benefits _ _ _)), Hfits by done. cbn [andb].
  assert (Hlv : len v = 2 * length x) by (by rewrite (reals_len v _ (proj2 Hv)), complex_to_array_length).
  set (imp := DVec _ _ _ _ _). assert (Hli : len imp = 2 * length x) by (change (len imp) with (len v); done). rewrite Hli.
  set (size := 2 * (2 * (2 * L + 1) * K)). change (elems imp) with (replicate size (n0 : R)).
  match goal with |- context [while_ ?aa ?bb ?cc ?dd] => change (while_ aa bb cc dd) with (while_ (2 * length x + 1) (upto (2 * length x)) (scatter f ratio (2 * length x)) dd) end.
  split.
  - intros Hs. replace 0 with (3 * 0) by lia. rewrite (scattered_panics f ratio (2 * length x) size); [done | lia | unfold size; lia | by rewrite replicate_length | lia | lia].
  - intros Hs Hb Hroom. destruct (scattered_loop f ratio L (2 * length x) size) as (i & j & l & E & Hl & Ht); [unfold size; lia|]. rewrite E, bind_Done.
    pose proof (Nat.div_mod (2 * length x + 2) 3 ltac:(lia)) as Ed. pose proof (Nat.mod_upper_bound (2 * length x + 2) 3 ltac:(lia)) as Em. assert (Hns : 2 * length x <= size) by (unfold size; lia).
    destruct (exists_complex (take (2 * length x) l)) as (h & Eh). { rewrite take_length, Nat.min_l by lia. apply even_double. }
    assert (Hlh : length h = length x). { apply (f_equal length) in Eh. rewrite take_length, complex_to_array_length in Eh. lia. }
    set (o := set_elems imp l).
    assert (Ho : cplx o h).
    { split; [exact (proj1 Hv)|]. apply (vdata_intro o (complex_to_array h) (drop (2 * length x) l)); [change (elems o) with l; rewrite <- Eh; by rewrite take_drop | change (valid_len o) with (len v); by rewrite complex_to_array_length, Hlh]. }
    assert (Hm : meta_agree v o) by (split_and!; try done; change (delta o) with (delta v); cbn [nltb ndiv nofnat Rnum]; by apply same_ratio).
    destruct (convolve_signal_cplx HF r addr s sched b v o x h Hal Hr2 Hv Ho) as (v' & b' & -> & Hv' & Hmeta).
    + intros _. change (alloc_len o) with (length l). rewrite Hl. apply even_double.
    + done.
    + done.
    + lia.
    + done.
    + by rewrite Hlh.
    + left. intros ->. cbn in Hlv. lia.
    + rewrite Hlh. lia.
    + rewrite bind_Done. exists v', b', h. split; [done|]. split; [done|]. split; [by rewrite <- Eh | done].
Qed.

(** The sampled path with a real vector: every second sample of the function is skipped. *)
Theorem convolve_real_response_halved r addr s sched b (v : dvec R) f ratio L K x : aligned_all r addr -> reg_len r <= 64 -> vdomain v = Time -> reals v x -> delta v <> 0%R ->
  20 * 100 < len v -> L <= 202 -> whole_inverse round ratio -> to_usize ratio = Some K -> (forall n, fits n = true) ->
  let m := (2 * L + 1) * K in
  (length x < m -> convolve_real_response round to_usize fits f ratio L r addr s sched b v = Panicked) /\
  (m <= length x -> lends b v (length x) ->
   exists v' b', convolve_real_response round to_usize fits f ratio L r addr s sched b v = Done (v', b') /\
     same_meta v v' /\ reals v' (centred_convolution n0 nadd nmul x (stretched_response f ratio L m))).
Proof using HF fits.
  intros Hal Hr2 Hd Hv Hdl Hn HL Hw Husize Hfits m. unfold convolve_real_response, calc_points. rewrite Hd, Husize, (proj1 Hv). cbn [ddomain_eqb negb]. cbv zeta.
  rewrite bind_Done, (proj2 (benefits _ _ _)), Hfits by done. cbn [andb].
  assert (Hlx : 20 * 100 < length x) by (by rewrite (reals_len v _ (proj2 Hv)) in Hn).
  set (pts := 1 * (2 * L + 1) * K). destruct (taps_loop f (n1 / ratio)%num L pts) as (i & j & l & E & Hl & Hi). rewrite E, bind_Done. clear E.
  assert (Ep : pts = m) by (unfold pts, m; lia). rewrite Ep in Hl, Hi.
  assert (El : l = stretched_response f ratio L m).
  { apply list_eq. intros q. unfold stretched_response. destruct (decide (q < m)) as [Hq|Hq]; [|rewrite !lookup_ge_None_2; [done | rewrite map_length, seq_length; lia | lia]].
    rewrite Hi by done. change (map ?g ?y) with (g <$> y). rewrite list_lookup_fmap, lookup_seq_lt by done. cbn [fmap option_fmap option_map]. f_equal. rewrite counted_R. done. }
  set (o := DVec _ _ _ _ _).
  assert (Ho : reals o l). { split; [exact (proj1 Hv)|]. apply (vdata_intro o l []); [change (elems o) with l; by rewrite app_nil_r | change (valid_len o) with pts; lia]. }
  assert (Hm : meta_agree v o) by (split_and!; try done; change (delta o) with (delta v); cbn [nltb ndiv nofnat Rnum]; by apply same_ratio).
  split.
  - intros Hshort. rewrite (proj2 (proj2 (convolve_signal_errors r addr s sched b v o)) Hm Hd), bind_Done; [done|]. rewrite (points_reals v x Hv), (points_reals o l Ho). lia.
  - intros Hlong Hb. destruct (convolve_signal_reals R_exact r addr s sched b v o x l Hal Hr2 Hv Ho) as (v' & b' & -> & Hv' & Hmeta).
    + done.
    + done.
    + lia.
    + done.
    + left. intros ->. cbn in Hlx. lia.
    + rewrite bind_Done, El in *. exists v', b'. done.
Qed.
End real.
