(** Interpolation with an impulse response, point by point. *)
From Verif Require Import Proof_Base Proof_Vec Proof_PadB Proof_Frame Proof_Window Proof_Convolve Proof_Interp Proof_Complex.
From Verif Require Import Spec_Interpolate.
From stdpp Require Import list_numbers.
Local Open Scope R_scope.
Local Notation C := (R * R)%type.

(** One point *)
Lemma interpolation_sum_spec {P} (zero : P) add mul (from : R -> P) h start (g : nat -> P) n :
  interpolation_sum zero add mul from h start (map g (seq 0 n)) = series zero add n (fun k => mul (g k) (from (h (start + INR k)))).
Proof.
  unfold interpolation_sum, series. cbn [nadd n1 Rnum].
  assert (K : forall m a z, foldl (fun '(sum, j) c => (add sum (mul c (from (h j))), j + 1)) (z, start + INR a) (map g (seq a m)) =
     (foldl add z (map (fun k => mul (g k) (from (h (start + INR k)))) (seq a m)), start + INR (a + m))).
  { induction m as [|m IH]; intros a z; cbn [seq map foldl]; [by rewrite Nat.add_0_r|].
    replace (start + INR a + 1) with (start + INR (S a)) by (rewrite S_INR; ring). rewrite IH. by replace (S a + m)%nat with (a + S m)%nat by lia. }
  specialize (K n 0%nat zero). cbn [INR] in K. rewrite Rplus_0_r in K. by rewrite K.
Qed.

Lemma Rtrunc_floor x : 0 <= x -> Rtrunc (Rfloor x) = Int_part x.
Proof.
  intros Hx. destruct (Rfloor_nat x Hx) as (b & Hb & _). rewrite Hb, Rtrunc_INR. unfold Rfloor in Hb. rewrite INR_IZR_INZ in Hb. apply eq_IZR in Hb. by rewrite Hb.
Qed.

Section points.
Context {P : Type} (zero : P) (add mul : P -> P -> P) (from : R -> P) (h : R -> R).
Theorem interpolate_points_spec f delay c s sched (x temp : list P) : x <> [] -> 0 < f -> temp <> [] \/ no_threads_for_nothing Large s ->
  interpolate_points zero add mul from h f delay c s sched x temp =
  Done (map (fun i => weighted zero add mul from x (fun y => h (y + delay)) (Int_part (INR i / f) - Z.of_nat c) c (INR i / f)) (seq 0 (length temp))).
Proof.
  intros Hx Hf Hs. unfold interpolate_points.
  apply (execute_fill s sched (fun i =>
      let center := (nofnat i / f)%num in
      let rounded := ffloor center in
      z ← unwrapped (to_isize rounded);
      it ← wi_new (length x) (z - Z.of_nat c - 1) (2 * c + 1);
      neighbours ← items (wi_next x) it;
      Done (interpolation_sum zero add mul from h (nopp (nofnat c) - (center - rounded) + delay)%num neighbours))); [|done].
  intros i _. cbv zeta. cbn [nofnat ndiv Rnum ffloor to_isize Rrounding unwrapped]. rewrite bind_Done. set (t := INR i / f).
  assert (Ht : 0 <= t). { unfold t. pose proof (pos_INR i). unfold Rdiv. apply Rmult_le_pos; [lra|]. left. by apply Rinv_0_lt_compat. }
  rewrite Rtrunc_floor by done. assert (Hl : (0 < length x)%nat) by (destruct x; [done | cbn; lia]).
  rewrite wi_new_Done, bind_Done by done. rewrite (items_forward zero) by done. rewrite bind_Done. f_equal. rewrite interpolation_sum_spec.
  unfold weighted, series. f_equal. apply map_ext. intros k. f_equal.
  - f_equal. lia.
  - f_equal. f_equal. cbn [nadd nsub nopp nofnat Rnum]. unfold Rfloor. rewrite !plus_IZR, minus_IZR, <- !INR_IZR_INZ. ring.
Qed.
End points.

(** The methods, without SIMD registers *)
Section scalar.
Context (h : response R R) (f delay : R) (c : nat) (r : reg_type) (addr : nat) (s : settings) (sched : list nat) (b : buffer R) (v : dvec R) (N0 : nat).
Let N := (N0 + N0 mod 2)%nat.
Context (Hf : 0 < f) (HN : Rround (INR (len v) * f) = INR N0) (Hb : lends b v N) (Hs : (0 < N)%nat \/ no_threads_for_nothing Large s).
Context (Hscalar : (202 < half_at_most (points v) c)%nat \/ (N < 2000)%nat \/ / 1000000 <= Rabs (Rround f - f)).

Lemma millionth_R : millionth = / 1000000.
Proof. unfold millionth. cbn [ndiv nmul nofnat n1 Rnum]. replace (INR 10) with 10 by (cbn; lra). field. Qed.
Lemma even_up : exists k, N = (2 * k)%nat.
Proof.
  subst N. clear. destruct (mod2_cases N0) as [E|E]; rewrite E; pose proof (Nat.div_mod N0 2 ltac:(lia)); [exists (N0 / 2)%nat | exists (N0 / 2 + 1)%nat]; lia.
Qed.
Lemma limited : (if (points v / 2 <? c)%nat then (points v / 2)%nat else c) = half_at_most (points v) c.
Proof. unfold half_at_most. destruct (Nat.ltb_spec (points v / 2) c); lia. Qed.
Lemma interpolatef_scalar_chosen : interpolatef h f delay c r addr s sched b v =
  interpolatef_scalar (r_calc h) f (delay / delta v) (half_at_most (points v) c) N s sched b v.
Proof using HN Hs Hscalar Hf Hb.
  unfold interpolatef. cbv zeta. cbn [nofnat nmul Rnum fround Rrounding]. rewrite HN, to_usize_INR. cbn [unwrapped]. rewrite bind_Done. rewrite limited.
  fold N. rewrite millionth_R. cbn [nltb nsub fabs Rnum Rrem]. change (10 * (10 * (10 * 2)))%nat with 2000%nat.
  match goal with |- (if ?cc then _ else _) = _ => replace cc with false; [done|] end. symmetry.
  destruct Hscalar as [K|[K|K]].
  - by rewrite (proj2 (Nat.leb_gt _ _) K).
  - rewrite (proj2 (Nat.leb_gt 2000 N) K). by rewrite andb_false_r.
  - apply andb_false_intro2. apply Rltb_false. lra.
Qed.

Theorem interpolatef_reals x : reals v x -> x <> [] ->
  exists v' b', interpolatef h f delay c r addr s sched b v = Done (v', b') /\ same_meta v v' /\
    reals v' (map (fun i => weighted 0 Rplus Rmult (fun y => y) x (fun y => r_calc h (y + delay / delta v))
       (Int_part (INR i / f) - Z.of_nat (half_at_most (length x) c)) (half_at_most (length x) c) (INR i / f)) (seq 0 N)).
Proof using Hf HN Hb Hs Hscalar.
  intros Hv Hx. rewrite interpolatef_scalar_chosen. rewrite (points_reals v x Hv). unfold interpolatef_scalar.
  destruct (borrow_lends n0 b v N Hb) as (temp & -> & Ht). rewrite bind_Done.
  destruct (vdata_split v _ (proj2 Hv)) as (rest & He & Hn). rewrite (proj1 Hv).
  rewrite He. rewrite (reals_len _ _ (proj2 Hv)), slice_pre, bind_Done.
  rewrite (interpolate_points_spec 0 Rplus Rmult (fun y => y) (r_calc h) f (delay / delta v)).
  2: done. 2: exact Hf. 2: { destruct Hs as [K|K]; [left; intros ->; cbn in Ht; lia | by right]. }
  rewrite bind_Done, Ht. set (y := map _ _). assert (Hy : length y = N) by (unfold y; by rewrite map_length, seq_length).
  destruct (trade_vdata b v y N Hb Hy) as (v' & b' & E & Hv' & Hm). destruct (trade b y (Model_Vec.data v)) as [st b''] eqn:Et.
  injection E as Ev Eb. exists v', b'. split; [|split; [done|]].
  - rewrite <- Ev, <- Eb. done.
  - split; [|done]. unfold is_complex. rewrite (proj2 (proj2 Hm)). exact (proj1 Hv).
Qed.
Theorem interpolatef_cplx x : cplx v x -> x <> [] ->
  exists v' b', interpolatef h f delay c r addr s sched b v = Done (v', b') /\ same_meta v v' /\
    cplx v' (map (fun i => weighted (0, 0) complex_sum complex_product of_real x (fun y => r_calc h (y + delay / delta v))
       (Int_part (INR i / f) - Z.of_nat (half_at_most (length x) c)) (half_at_most (length x) c) (INR i / f)) (seq 0 (N / 2))).
Proof using Hf HN Hb Hs Hscalar.
  intros Hv Hx. rewrite interpolatef_scalar_chosen. rewrite (points_cplx v x Hv). unfold interpolatef_scalar.
  destruct (borrow_lends n0 b v N Hb) as (temp & -> & Ht). rewrite bind_Done.
  destruct (vdata_split v _ (proj2 Hv)) as (rest & He & Hn). rewrite (proj1 Hv). destruct even_up as [k Hk].
  rewrite He. rewrite (reals_len _ _ (proj2 Hv)), slice_pre, bind_Done.
  rewrite slice_Done by lia. rewrite bind_Done, drop_0, Nat.sub_0_r, take_ge by lia.
  set (dest := pairs_of temp). assert (Ed : temp = complex_to_array dest). { unfold dest. rewrite complex_to_array_pairs_of; [done|]. rewrite Ht, Hk. apply even_double. }
  assert (Hdl : length dest = (N / 2)%nat) by (unfold dest; by rewrite pairs_of_length, Ht).
  assert (Ea : as_complex temp = Done dest). { transitivity (array_to_complex (complex_to_array dest)); [by rewrite <- Ed | apply array_to_complex_Done]. }
  rewrite Ea, bind_Done. unfold as_complex. rewrite (array_to_complex_Done x), bind_Done.
  rewrite (interpolate_points_spec (0, 0) complex_sum complex_product of_real (r_calc h) f (delay / delta v)).
  2: done. 2: exact Hf. 2: { destruct Hs as [K|K]; [left; intros E; rewrite E in Hdl; cbn [length] in Hdl; rewrite Hk, Proof_SimdOps.div2_double in Hdl; lia | by right]. }
  rewrite bind_Done, Hdl. set (y := map _ _). assert (Hy : length y = (N / 2)%nat) by (unfold y; by rewrite map_length, seq_length).
  assert (Hya : length (complex_to_array y) = N) by (rewrite complex_to_array_length, Hy, Hk, Proof_SimdOps.div2_double; lia).
  rewrite splice_Done by lia. rewrite bind_Done, take_0, drop_ge, app_nil_r by lia. cbn [app].
  destruct (trade_vdata b v (complex_to_array y) N Hb Hya) as (v' & b' & E & Hv' & Hm). destruct (trade b (complex_to_array y) (Model_Vec.data v)) as [st b''] eqn:Et.
  injection E as Ev Eb. exists v', b'. split; [|split; [done|]].
  - rewrite <- Ev, <- Eb. done.
  - split; [|done]. unfold is_complex. rewrite (proj2 (proj2 Hm)). exact (proj1 Hv).
Qed.
End scalar.
