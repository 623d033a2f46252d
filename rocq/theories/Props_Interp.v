(** C36, C37, C38, C50: decimation, interpolation between neighbours and lookup tables. *)
From Verif Require Import Proof_LutOps Proof_PadB Proof_Split Proof_CorrV NumsFlt NumsR NumsTrig.
From stdpp Require Import list_numbers.
From Verif Require Import Spec_Interp Model_Chunk.
Local Open Scope nat_scope.

Definition ex_vec {A} `{Num A} (ns : nspace) (d : dmarker) (l : list A) : dvec A := DVec (Storage KVec (length l) l) n1 d ns (length l).
Lemma reals_ex d (l : list R) : reals (ex_vec NReal d l) l.
Proof. split; [done|]. apply (vdata_intro _ l []); [by rewrite app_nil_r | done]. Qed.
Definition one_core : settings := with_thresholds 1 2 3 2 3.

(** * C36 decimatei keeps every k-th point *)
Theorem C36_decimatei_real : forall {A} (v : dvec A) x k d, reals v x -> 0 < k ->
  exists v' y, decimatei v k d = Done v' /\ reals v' y /\ every k d x y /\ same_meta v v' /\ alloc_len v' = alloc_len v.
Proof. exact @decimatei_reals. Qed.
Print Assumptions C36_decimatei_real.
Theorem C36_decimatei_complex : forall {A} (v : dvec A) x k d, cplx v x -> 0 < k ->
  exists v' y, decimatei v k d = Done v' /\ cplx v' y /\ every k d x y /\ same_meta v v' /\ alloc_len v' = alloc_len v.
Proof. exact @decimatei_cplx. Qed.
Print Assumptions C36_decimatei_complex.
(** The number of the points which are left; a delay behind the end leaves none. *)
Theorem C36_length : forall {P} k d (x y : list P), 0 < k -> every k d x y -> length y = (length x - d + (k - 1)) / k.
Proof. exact @every_length. Qed.
Print Assumptions C36_length.

(** Zeros between the points, and back: for both number spaces and every factor. *)
Theorem C36_inverse_real : forall {A} `{Num A} (v v1 : dvec A) x k, reals v x -> 0 < k -> zero_interleave n0 v k = Done (v1, Ok tt) ->
  exists v2, decimatei v1 k 0 = Done v2 /\ reals v2 x /\ same_meta v v2.
Proof.
  intros A HN v v1 x k Hv Hk E. destruct (zero_interleave_real n0 v x k Hv Hk) as [(e & E' & _)|(v1' & E' & M & Hv1)]; rewrite E in E'; [done|]. injection E' as <-.
  destruct (decimatei_reals v1 _ k 0 Hv1 Hk) as (v2 & y & E2 & Hy & He & M2 & _). exists v2.
  rewrite (every_unique k 0 _ y x He) in Hy by (by apply every_interleaved). split_and!; try done. by apply same_meta_trans with v1.
Qed.
Print Assumptions C36_inverse_real.
Theorem C36_inverse_complex : forall {A} `{Num A} (v v1 : dvec A) x k, cplx v x -> 0 < k -> Nat.even (alloc_len v) = true \/ alloc_len v < 2 * (length x * k) ->
  zero_interleave n0 v k = Done (v1, Ok tt) ->
  exists v2, decimatei v1 k 0 = Done v2 /\ cplx v2 x /\ same_meta v v2.
Proof.
  intros A HN v v1 x k Hv Hk Ha E. destruct (zero_interleave_cplx n0 v x k Hv Hk Ha) as [(e & E' & _)|(v1' & E' & M & Hv1)]; rewrite E in E'; [done|]. injection E' as <-.
  destruct (decimatei_cplx v1 _ k 0 Hv1 Hk) as (v2 & y & E2 & Hy & He & M2 & _). exists v2.
  rewrite (every_unique k 0 _ y x He) in Hy by (by apply every_interleaved). split_and!; try done. by apply same_meta_trans with v1.
Qed.
Print Assumptions C36_inverse_complex.

(** Decimating twice is decimating once. *)
Theorem C36_compose : forall {A} (v v1 v2 : dvec A) x k k' d d', reals v x -> 0 < k -> 0 < k' -> decimatei v k d = Done v1 -> decimatei v1 k' d' = Done v2 ->
  exists v3 y, decimatei v (k * k') (d + d' * k) = Done v3 /\ reals v3 y /\ reals v2 y.
Proof.
  intros A v v1 v2 x k k' d d' Hv Hk Hk' E1 E2. destruct (decimatei_reals v x k d Hv Hk) as (w1 & y1 & F1 & Hy1 & He1 & _). rewrite E1 in F1. injection F1 as <-.
  destruct (decimatei_reals v1 y1 k' d' Hy1 Hk') as (w2 & y2 & F2 & Hy2 & He2 & _). rewrite E2 in F2. injection F2 as <-.
  destruct (decimatei_reals v x (k * k') (d + d' * k) Hv) as (w3 & y3 & F3 & Hy3 & He3 & _); [nia|]. exists w3, y3. split_and!; try done.
  by rewrite (every_unique _ _ _ y3 y2 He3) by (by eapply every_every).
Qed.
Print Assumptions C36_compose.

(** The factor 0 does not give an error: it runs out of the vector. *)
Theorem C36_factor_zero_refuted : forall {A} (v : dvec A) d, wf v -> d < points v -> decimatei v 0 d = Panicked.
Proof. exact @decimatei_zero. Qed.
Print Assumptions C36_factor_zero_refuted.

Example C36_example : (exists v', decimatei (ex_vec NReal DTime [0; 1; 2; 3; 4; 5; 6]%Z) 3 1 = Done v' /\ reals v' [1; 4]%Z) /\
  (exists v', decimatei (ex_vec NComplex DTime [0; 1; 2; 3; 4; 5; 6; 7]%Z) 2 1 = Done v' /\ cplx v' [(2, 3); (6, 7)]%Z) /\
  (exists v', decimatei (ex_vec NReal DTime [0; 1; 2]%Z) 2 5 = Done v' /\ reals v' []) /\
  (exists v1 v2, zero_interleave 0%Z (ex_vec NReal DTime [7; 8; 9]%Z) 3 = Done (v1, Ok tt) /\ decimatei v1 3 0 = Done v2 /\ reals v2 [7; 8; 9]%Z).
Proof. split_and!; eexists; [..|eexists]; vm_compute; split_and!; done. Qed.

(** * C37 Interpolation reproduces the samples *)
Local Open Scope R_scope.
Theorem C37_linear : forall b (v : dvec R) x k, reals v x -> x <> [] -> (0 < k)%nat -> lends b v ((length x - 1) * k + 1) ->
  exists v' b' y, interpolate_lin b v (INR k) 0 = Done (v', b') /\ reals v' y /\ same_meta v v' /\ length y = ((length x - 1) * k + 1)%nat /\
    (forall i, (i < length x)%nat -> y !! (i * k)%nat = x !! i) /\
    (forall i r, (i + 1 < length x)%nat -> (r < k)%nat -> y !! (i * k + r)%nat = Some (on_line x i (INR i + INR r / INR k))) /\
    (forall a c, (forall i, (i < length x)%nat -> x !! i = Some (a + c * INR i)) -> forall j, (j < length y)%nat -> y !! j = Some (a + c * (INR j / INR k))).
Proof. exact interpolate_lin_integer. Qed.
Print Assumptions C37_linear.

(** Any factor and delay, as long as all points lie between samples; the last point is always the last sample *)
Theorem C37_linear_any : forall b (v : dvec R) x f delay N, reals v x -> x <> [] -> 0 < f -> 0 <= delay -> Rround (INR (length x - 1) * f) = INR N ->
  N = 0%nat \/ INR (N - 1) / f + delay < INR (length x - 1) -> lends b v (N + 1) ->
  exists v' b' y, interpolate_lin b v f delay = Done (v', b') /\ reals v' y /\ same_meta v v' /\ length y = (N + 1)%nat /\ y !! N = x !! (length x - 1)%nat /\
    forall j p, (j < N)%nat -> INR p <= INR j / f + delay < INR p + 1 -> y !! j = Some (on_line x p (INR j / f + delay)).
Proof. exact interpolate_lin_spec. Qed.
Print Assumptions C37_linear_any.

(** A delay which leads behind the last or before the first sample panics instead of extrapolating. *)
Theorem C37_linear_delay_refuted : forall b (v : dvec R) x f delay N j, reals v x -> x <> [] -> 0 < f -> Rround (INR (length x - 1) * f) = INR N -> lends b v (N + 1) ->
  (j < N)%nat -> INR j / f + delay < 0 \/ INR (length x - 1) <= INR j / f + delay -> interpolate_lin b v f delay = Panicked.
Proof. exact interpolate_lin_panics. Qed.
Print Assumptions C37_linear_delay_refuted.

(** Hermite interpolation: the samples are kept, straight lines are reproduced, and each point is on the Catmull-Rom polynomial through its neighbours;
    the neighbours beyond the ends are extrapolated linearly. What is missing: vectors of one or two points, and factors which are not integers. *)
Theorem C37_hermite : forall b (v : dvec R) x k, reals v x -> (3 <= length x)%nat -> (0 < k)%nat -> lends b v ((length x - 1) * k + 1) ->
  exists v' b' y, interpolate_hermite b v (INR k) 0 = Done (v', b') /\ reals v' y /\ length y = ((length x - 1) * k + 1)%nat /\
    (forall i, (i < length x)%nat -> y !! (i * k)%nat = x !! i) /\
    (forall a c, (forall i, (i < length x)%nat -> x !! i = Some (a + c * INR i)) -> forall j, (j < length y)%nat -> y !! j = Some (a + c * (INR j / INR k))).
Proof. exact interpolate_hermite_keeps. Qed.
Print Assumptions C37_hermite.
Theorem C37_hermite_points : forall b (v : dvec R) x k, reals v x -> (3 <= length x)%nat -> (0 < k)%nat -> lends b v ((length x - 1) * k + 1) ->
  exists v' b' y, interpolate_hermite b v (INR k) 0 = Done (v', b') /\ reals v' y /\ same_meta v v' /\ length y = ((length x - 1) * k + 1)%nat /\
    (forall i r, (i < length x)%nat -> (r < k)%nat -> (i * k + r < length y)%nat -> y !! (i * k + r)%nat =
      Some (catmull_rom (extended x (Z.of_nat i - 1)) (extended x (Z.of_nat i)) (extended x (Z.of_nat i + 1)) (extended x (Z.of_nat i + 2)) (INR r / INR k))).
Proof. exact interpolate_hermite_integer. Qed.
Print Assumptions C37_hermite_points.

(** Fewer than three samples: a panic, although lines through two samples and constants are well defined *)
Theorem C37_hermite_short_refuted : forall b (v : dvec R) x k, reals v x -> (length x < 3)%nat -> (0 < k)%nat -> lends b v ((length x - 1) * k + 1) -> interpolate_hermite b v (INR k) 0 = Panicked.
Proof. exact interpolate_hermite_short. Qed.
Print Assumptions C37_hermite_short_refuted.
(** A factor such that the last section begins too early: the assertion of the code fails. *)
Theorem C37_hermite_assertion_refuted : forall b (v : dvec R) x f N st j, reals v x -> x <> [] -> 0 < f -> Rround (INR (length x - 1) * f) = INR N -> lends b v (N + 1) ->
  - Rfloor (- f) = INR st -> (N - st <= j <= N)%nat -> (st <= N)%nat -> INR j / f < INR (length x - 2) -> interpolate_hermite b v f 0 = Panicked.
Proof. exact interpolate_hermite_assertion. Qed.
Print Assumptions C37_hermite_assertion_refuted.
(** Complex vectors are refused by both: they become invalid. *)
Theorem C37_complex : forall {A} `{Num A} `{Rounding A} b (v : dvec A) factor delay n, is_complex v = true -> interpolated_len (len v) factor = Done n -> (exists t, borrow n0 b n = Done t) ->
  exists b1 b2, interpolate_lin b v factor delay = Done (mark_vector_as_invalid v, b1) /\ interpolate_hermite b v factor delay = Done (mark_vector_as_invalid v, b2).
Proof. intros A HN HR b v f d n Hc E [t Ht]. unfold interpolate_lin, interpolate_hermite. rewrite E, !bind_Done, Ht, !bind_Done, Hc. eexists _, _. split; reflexivity. Qed.
Print Assumptions C37_complex.

Example C37_example : exists v' b' y, interpolate_lin (NoBuffer : buffer R) (ex_vec NReal DTime [1; 5; 3]) (INR 2) 0 = Done (v', b') /\ reals v' y /\ y = [1; 3; 5; 4; 3].
Proof.
  destruct (C37_linear NoBuffer (ex_vec NReal DTime [1; 5; 3]) [1; 5; 3] 2 (reals_ex _ _) ltac:(discriminate) ltac:(lia) I) as (v' & b' & y & E & Hy & _ & Hl & Hs & Hg & _).
  exists v', b', y. split; [exact E|]. split; [exact Hy|].
  pose proof (Hs 0%nat ltac:(cbn; lia)) as Y0. pose proof (Hs 1%nat ltac:(cbn; lia)) as Y2. pose proof (Hs 2%nat ltac:(cbn; lia)) as Y4.
  pose proof (Hg 0%nat 1%nat ltac:(cbn; lia) ltac:(lia)) as Y1. pose proof (Hg 1%nat 1%nat ltac:(cbn; lia) ltac:(lia)) as Y3.
  cbn in Hl. destruct y as [|y0 [|y1 [|y2 [|y3 [|y4 [|]]]]]]; try (cbn in Hl; lia). cbn in Y0, Y2, Y4. unfold on_line in Y1, Y3. cbn in Y1, Y3.
  injection Y0 as ->. injection Y2 as ->. injection Y4 as ->. injection Y1 as ->. injection Y3 as ->. repeat f_equal; lra.
Qed.
(** Four samples and the factor 1.4 *)
Example C37_hermite_refuted : interpolate_hermite (NoBuffer : buffer R) (ex_vec NReal DTime [1; 5; 3; 2]) (7 / 5) 0 = Panicked.
Proof.
  apply (C37_hermite_assertion_refuted NoBuffer _ [1; 5; 3; 2] (7 / 5) 4 2 2 (reals_ex _ _)); [done | lra | | done | | lia | lia |].
  - cbn [length Nat.sub]. apply Rround_unique; cbn [INR]; lra.
  - replace (INR 2) with (- - 2) by (cbn; lra). f_equal. unfold Rfloor. rewrite (Int_part_unique (- (7 / 5)) (-2)); [done|]. lra.
  - cbn. lra.
Qed.

(** * C38 Lookup tables reproduce the tabulated function *)
(** At the points of the table: real and complex tables, for every function. *)
Theorem C38_points : forall (f : R -> R) sym d L j, d <> 0 -> (- Z.of_nat L <= j <= Z.of_nat L)%Z ->
  real_lut_calc (lut_of_function f sym d L) (IZR j * d) = Done (f (IZR j * d)).
Proof. intros f sym d L j. apply of_function_at. Qed.
Print Assumptions C38_points.
Theorem C38_points_complex : forall (f : R -> R * R) sym d L j, d <> 0 -> (- Z.of_nat L <= j <= Z.of_nat L)%Z ->
  complex_lut_calc (lut_of_function f sym d L) (IZR j * d) = Done (f (IZR j * d)).
Proof. intros f sym d L j. apply of_function_at. Qed.
Print Assumptions C38_points_complex.

(** Between two points of any table: the straight line, except for the neighbourhood of a point, where it is the value of the point. *)
Theorem C38_between : forall (t : lut R R) x k y0 y1, lut_table t !! k = Some y0 -> lut_table t !! (k + 1)%nat = Some y1 -> INR k <= place t x <= INR (k + 1) ->
  exists y, real_lut_calc t x = Done y /\ between_points lerp y0 y1 (place t x - INR k) y /\ Rmin y0 y1 <= y <= Rmax y0 y1 /\
    Rabs (y - lerp y0 y1 (place t x - INR k)) <= tolerance * Rabs (y1 - y0).
Proof.
  intros t x k y0 y1 H0 H1 Hp. destruct (calc_between 0 _ _ _ lerp lerp_up lerp_down t x k y0 y1 H0 H1 Hp) as (y & E & Hb). exists y. split; [exact E|]. split; [exact Hb|].
  apply between_points_range; [|done]. rewrite INR_1_add in Hp. lra.
Qed.
Print Assumptions C38_between.
Theorem C38_between_complex : forall (t : lut R (R * R)) x k y0 y1, lut_table t !! k = Some y0 -> lut_table t !! (k + 1)%nat = Some y1 -> INR k <= place t x <= INR (k + 1) ->
  exists y, complex_lut_calc t x = Done y /\ between_points clerp y0 y1 (place t x - INR k) y.
Proof. intros t x k y0 y1 H0 H1 Hp. exact (calc_between (0, 0) _ _ _ clerp clerp_up clerp_down t x k y0 y1 H0 H1 Hp). Qed.
Print Assumptions C38_between_complex.

(** Tables of a symmetric function are symmetric, inside of the table. *)
Theorem C38_symmetric : forall (f : R -> R) sym d L x, (forall y, f (- y) = f y) -> d <> 0 -> (1 <= L)%nat -> - INR L <= x / d <= INR L ->
  real_lut_calc (lut_of_function f sym d L) (- x) = real_lut_calc (lut_of_function f sym d L) x.
Proof. intros f sym d L x. exact (of_function_symmetric 0 _ _ _ lerp lerp_up lerp_down f sym d L x). Qed.
Print Assumptions C38_symmetric.
Theorem C38_symmetric_complex : forall (f : R -> R * R) sym d L x, (forall y, f (- y) = f y) -> d <> 0 -> (1 <= L)%nat -> - INR L <= x / d <= INR L ->
  complex_lut_calc (lut_of_function f sym d L) (- x) = complex_lut_calc (lut_of_function f sym d L) x.
Proof. intros f sym d L x. exact (of_function_symmetric (0, 0) _ _ _ clerp clerp_up clerp_down f sym d L x). Qed.
Print Assumptions C38_symmetric_complex.

(** Outside of the table. On the right side: zero from half a step behind the last point on, and the last value up to there. *)
Theorem C38_right : forall (t : lut R R) x,
  (INR (length (lut_table t)) - / 2 <= place t x -> 0 <= place t x -> real_lut_calc t x = Done 0) /\
  (forall y, lut_table t !! (length (lut_table t) - 1)%nat = Some y -> INR (length (lut_table t) - 1) <= place t x < INR (length (lut_table t) - 1) + / 2 -> real_lut_calc t x = Done y).
Proof. intros t x. split; [apply calc_right | intros y; apply calc_last]. Qed.
Print Assumptions C38_right.
(** On the left side the table never ends: the first value is repeated, it is not zero. *)
Theorem C38_left_refuted : forall (t : lut R R) x y, lut_table t !! 0%nat = Some y -> place t x < 0 -> real_lut_calc t x = Done y.
Proof. intros t x y. apply calc_left. Qed.
Print Assumptions C38_left_refuted.
(** So a table of the function which is 1 everywhere is not symmetric outside. *)
Example C38_outside_refuted : let t := lut_of_function (fun _ : R => 1) true 1 2 in
  real_lut_calc t (-10) = Done 1 /\ real_lut_calc t 10 = Done 0 /\ real_lut_calc t 2 = Done 1 /\ real_lut_calc t (-2) = Done 1 /\ (exists y, real_lut_calc t (1 / 3) = Done y /\ 1 <= y <= 1).
Proof.
  assert (Hlk : forall k, (k < 5)%nat -> lut_table (lut_of_function (fun _ : R => 1) true 1 2) !! k = Some 1) by (intros k Hk; apply of_function_lookup; lia).
  cbv zeta. split; [|split; [|split; [|split]]].
  - apply C38_left_refuted; [apply Hlk; lia|]. rewrite of_function_place. cbn. lra.
  - apply (proj1 (C38_right _ _)); rewrite ?of_function_length, of_function_place; cbn; lra.
  - replace 2 with (IZR 2 * 1) by lra. apply (C38_points (fun _ => 1)); [lra | lia].
  - replace (-2) with (IZR (-2) * 1) by lra. apply (C38_points (fun _ => 1)); [lra | lia].
  - destruct (C38_between (lut_of_function (fun _ : R => 1) true 1 2) (1 / 3) 2 1 1) as (y & E & _ & Hr & _); [apply Hlk; lia | apply Hlk; lia | rewrite of_function_place; cbn; lra|].
    exists y. split; [exact E|]. by rewrite Rmin_left, Rmax_left in Hr by lra.
Qed.

(** * C50 Lookup tables can be converted *)
Local Open Scope nat_scope.
(** Number spaces: the values, the resolution and the symmetry stay; there and back is the identity. *)
Theorem C50_to_complex : forall {A} `{Num A} (t : lut A A), lut_table t <> [] ->
  lut_to_complex t = Done (Lut (map (fun x => (x, n0)) (lut_table t)) (lut_delta t) (lut_symmetric t)).
Proof. exact @lut_to_complex_spec. Qed.
Print Assumptions C50_to_complex.
Theorem C50_to_real : forall {A} `{Num A} s sched (t : lut A (A * A)), lut_to_real s sched t = Done (Lut (map fst (lut_table t)) (lut_delta t) (lut_symmetric t)).
Proof. exact @lut_to_real_spec. Qed.
Print Assumptions C50_to_real.
Theorem C50_number_spaces : forall {A} `{Num A} s sched (t : lut A A), lut_table t <> [] -> exists u, lut_to_complex t = Done u /\ lut_to_real s sched u = Done t.
Proof.
  intros A HN s sched [l d sym] Hne. eexists. split; [by apply lut_to_complex_spec|]. rewrite lut_to_real_spec. cbn [lut_table lut_delta lut_symmetric].
  rewrite map_map. cbn [fst]. by rewrite map_id.
Qed.
Print Assumptions C50_number_spaces.

(** Domains: the spectrum is centred like the table is, and the way back restores the values. What is missing: see the next theorems. *)
Theorem C50_fft : forall {A} `{Num A} `{F : Fft A}, (forall c, length (fft_forward c) = length c) -> forall t : lut A (A * A),
  fft_inplace_scratch_len (length (lut_table t)) <= length (lut_table t) ->
  exists X, lut_fft t = Done (Lut X (nofnat (length (lut_table t)) * lut_delta t)%num (lut_symmetric t)) /\ rotated_by (length (lut_table t) / 2) (fft_forward (lut_table t)) X.
Proof. exact @lut_fft_spec. Qed.
Print Assumptions C50_fft.
Theorem C50_magnitude_spectrum : forall {A} `{Num A} `{Flt A} `{F : Fft A}, (forall c, length (fft_forward c) = length c) -> forall t : lut A A,
  lut_table t <> [] -> fft_inplace_scratch_len (length (lut_table t)) <= length (lut_table t) ->
  exists X, lut_real_fft t = Done (Lut (map (fun x => fhypot (fst x) (snd x)) X) (nofnat (length (lut_table t)) * lut_delta t)%num (lut_symmetric t)) /\
    rotated_by (length (lut_table t) / 2) (fft_forward (map (fun x => (x, n0)) (lut_table t))) X.
Proof. exact @lut_real_fft_spec. Qed.
Print Assumptions C50_magnitude_spectrum.
(** The values come back, but the resolution is multiplied with the square of the number of points. *)
Theorem C50_fft_ifft_refuted : forall `{F : Fft R}, computes_dft -> forall r addr s sched (t : lut R (R * R)), let n := length (lut_table t) in
  reg_ok r -> elem_aligned r addr -> simd_fits r addr (2 * n) -> n <> 1 -> fft_inplace_scratch_len n <= n ->
  exists u, lut_fft t = Done u /\ lut_ifft r addr s sched u = Done (Lut (lut_table t) (INR n * (INR n * lut_delta t))%R (lut_symmetric t)).
Proof. exact @lut_fft_ifft. Qed.
Print Assumptions C50_fft_ifft_refuted.
(** The scratch space of the transform has to fit into a buffer of the size of the table, otherwise the transform panics. *)
Theorem C50_scratch_refuted : forall {A} `{Num A} `{F : Fft A} (t : lut A (A * A)), length (lut_table t) < fft_inplace_scratch_len (length (lut_table t)) -> lut_fft t = Panicked.
Proof. exact @lut_fft_scratch. Qed.
Print Assumptions C50_scratch_refuted.
Definition Zfft : Fft Z := {| fft_forward := @rev _; fft_inverse := @rev _; fft_rest := fun c => c; fft_inplace_scratch_len := fun n => n; fft_outofplace_scratch_len := fun _ => 0 |}.
Example C50_example : let t := Lut [1; 2; 3]%Z 5%Z true in
  (exists u, lut_to_complex t = Done u /\ lut_to_real one_core [] u = Done t) /\
  (exists u, lut_to_complex t = Done u /\ lut_fft (F := Zfft) u = Done (Lut [(1, 0); (3, 0); (2, 0)]%Z 15%Z true)).
Proof. split; eexists; vm_compute; done. Qed.
