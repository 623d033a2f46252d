(** Theorems for C74: rounding errors of the convolution of real vectors with registers *)
From Verif Require Import Proof_F64 Proof_Convolve Proof_Overlap Proof_OverlapV Proof_Prec Proof_PrecOps Proof_Round Proof_RoundSimd Proof_RoundSimdC Spec_Round Spec_Convolve Model_Double Props_Prec Props_Stats Props_Convolve Props_RoundConv.
From stdpp Require Import list_numbers tactics.
From Coq Require Import Lia.
Local Open Scope R_scope.

(** [convolve_signal_simd], whatever the alignment of the vector and the number of threads. The factor counts the additions of the registers and of their lanes. *)
Theorem C74_registers : forall {A} `{Num A} (val : A -> R) usual u, rounds val usual u -> 0 <= u ->
  forall r addr s sched b (v o : dvec A) x h, reg_ok r -> elem_aligned r addr -> half_aligned r addr -> reals v x -> reals o h -> lends b v (length x) ->
  (length h < length x)%nat -> (2 * ((length h + 1) / 2 + reg_len r) < length x)%nat -> let k := (length h + 2 * reg_len r)%nat in INR k * u <= 1 ->
  (forall y, y ∈ x -> usual (nmul y n0) /\ val (nmul y n0) = 0) -> (forall i p, (i < length x)%nat -> p ∈ products n0 nmul x h i -> usual p) ->
  exists v' b' y, convolve_signal_simd r addr s sched b v o = Done (v', b') /\ reals v' y /\ length y = length x /\
    forall i, (i < length x)%nat -> exists q, y !! i = Some q /\ usual q /\ within u (2 * INR k) (map val (products n0 nmul x h i)) (val q).
Proof.
  intros A HN val usual u HR Hu r addr s sched b v o x h Hr Ha Hh Hv Ho Hb Hlt Hsize k Hk Hx0 Hx.
  destruct (convolve_simd_near val usual u HR Hu r addr s sched b v o x h Hr Ha Hh Hv Ho Hb Hlt Hsize Hx0 Hx) as (v' & b' & y & E & Hv' & _ & Hy & G).
  exists v', b', y. split; [exact E|]. split; [exact Hv'|]. split; [exact Hy|]. intros i Hi. destruct (G i Hi) as (q & Eq & N). exists q. split; [exact Eq|].
  split; [apply N|]. by apply (near_within val usual u Hu).
Qed.
Print Assumptions C74_registers.

(** [convolve_signal] of all real vectors: whichever way the code takes *)
Theorem C74_convolve_signal_any : forall {A} `{Num A} `{F : Fft A} (val : A -> R) usual u, rounds val usual u -> 0 <= u ->
  forall r addr s sched b (v o : dvec A) x h, reg_ok r -> (reg_len r <= 16)%nat -> elem_aligned r addr -> half_aligned r addr -> reals v x -> reals o h ->
  meta_agree v o -> vdomain v = Time -> (length h <= length x)%nat -> lends b v (length x) -> x <> [] \/ no_threads_for_nothing Large s ->
  let k := (length h + 2 * reg_len r)%nat in INR k * u <= 1 ->
  (forall y, y ∈ x -> usual (nmul y n0) /\ val (nmul y n0) = 0) -> (forall i p, (i < length x)%nat -> p ∈ products n0 nmul x h i -> usual p) ->
  exists v' b' y, convolve_signal r addr s sched b v o = Done (v', b', Ok tt) /\ reals v' y /\ length y = length x /\
    forall i, (i < length x)%nat -> exists q, y !! i = Some q /\ usual q /\ within u (2 * INR k) (map val (products n0 nmul x h i)) (val q).
Proof.
  intros A HN F val usual u HR Hu r addr s sched b v o x h Hr Hw Ha Hh Hv Ho Hm Hd Hl Hb Hs k Hk Hx0 Hx.
  assert (Hdec : (1000 < length x /\ 11 < length h <= 202)%nat \/ ~ (1000 < length x /\ 11 < length h <= 202)%nat).
  { destruct (Nat.lt_ge_cases 1000 (length x)); [|right; intros [? _]; lia]. destruct (Nat.lt_ge_cases 11 (length h)); [|right; intros (_ & ? & _); lia].
    destruct (Nat.le_gt_cases (length h) 202); [left; tauto|right; intros (_ & _ & ?); lia]. }
  destruct Hdec as [(H1 & H2 & H3)|Hno].
  - assert (Hq : (2 * ((length h + 1) / 2) <= length h + 1)%nat) by (apply Nat.mul_div_le; lia).
    destruct (C74_registers val usual u HR Hu r addr s sched b v o x h) as (v' & b' & y & E & Hv' & G); try done.
    { lia. } { clear -Hq H1 H3 Hw. lia. }
    exists v', b', y. split; [|split; [exact Hv'|exact G]].
    unfold convolve_signal. assert (Hmd : meta_disagree v o = false) by (destruct (meta_disagree v o) eqn:Em; [by apply meta_disagree_spec in Em | done]).
    rewrite Hmd, Hd. cbn [ddomain_eqb negb]. rewrite (points_reals v x Hv), (points_reals o h Ho).
    rewrite (proj2 (Nat.ltb_ge _ _) Hl). rewrite (reals_len v x (proj2 Hv)), (reals_len o h (proj2 Ho)).
    rewrite (proj2 (Nat.ltb_lt _ _) H1), (proj2 (Nat.leb_le _ _) H3), (proj2 (Nat.ltb_lt _ _) H2). cbn [andb]. by rewrite E.
  - assert (Hk' : INR (length h) * u <= 1).
    { refine (Rle_trans _ _ _ _ Hk). apply Rmult_le_compat_r; [exact Hu|]. apply le_INR. unfold k. lia. }
    destruct (C74_convolve_signal val usual u HR Hu r addr s sched b v o x h Hv Ho Hm Hd Hl Hb Hs Hno Hk' Hx) as (v' & b' & y & E & Hv' & Ly & G).
    exists v', b', y. split; [exact E|]. split; [exact Hv'|]. split; [exact Ly|]. intros i Hi. destruct (G i Hi) as (q & Eq & U & W). exists q. split; [exact Eq|]. split; [exact U|].
    unfold within in W |- *. refine (Rle_trans _ _ _ W _). apply Rmult_le_compat_r; [apply Rsum_abs_pos|]. apply Rmult_le_compat_r; [exact Hu|].
    apply Rmult_le_compat_l; [lra|]. apply le_INR. unfold k. lia.
Qed.
Print Assumptions C74_convolve_signal_any.

(** The scalar loop and the registers give different machine numbers, but not very different ones *)
Theorem C74_registers_scalar : forall {A} `{Num A} (val : A -> R) usual u, rounds val usual u -> 0 <= u ->
  forall r addr s sched sched' b b' (v o : dvec A) x h, reg_ok r -> elem_aligned r addr -> half_aligned r addr -> reals v x -> reals o h -> lends b v (length x) -> lends b' v (length x) ->
  (length h < length x)%nat -> (2 * ((length h + 1) / 2 + reg_len r) < length x)%nat -> INR (length h + 2 * reg_len r) * u <= 1 ->
  (forall y, y ∈ x -> usual (nmul y n0) /\ val (nmul y n0) = 0) -> (forall i p, (i < length x)%nat -> p ∈ products n0 nmul x h i -> usual p) ->
  exists v1 b1 v2 b2 y1 y2, convolve_signal_simd r addr s sched b v o = Done (v1, b1) /\ convolve_signal_scalar s sched' b' v o = Done (v2, b2) /\ reals v1 y1 /\ reals v2 y2 /\
    forall i, (i < length x)%nat -> exists q1 q2, y1 !! i = Some q1 /\ y2 !! i = Some q2 /\
      Rabs (val q1 - val q2) <= 4 * INR (length h + reg_len r) * u * Rsum (map (fun p => Rabs (val p)) (products n0 nmul x h i)).
Proof.
  intros A HN val usual u HR Hu r addr s sched sched' b b' v o x h Hr Ha Hh Hv Ho Hb Hb' Hlt Hsize Hk Hx0 Hx.
  destruct (C74_registers val usual u HR Hu r addr s sched b v o x h) as (v1 & b1 & y1 & E1 & Hv1 & _ & G1); try done.
  destruct (convolve_scalar_reals s sched' b' v o x h Hv Ho ltac:(lia) Hb' ltac:(left; intros ->; cbn in Hlt; lia)) as (v2 & b2 & E2 & Hv2 & _).
  exists v1, b1, v2, b2, y1, (centred_convolution n0 nadd nmul x h). split; [exact E1|]. split; [exact E2|]. split; [exact Hv1|]. split; [exact Hv2|].
  intros i Hi. destruct (G1 i Hi) as (q1 & Eq1 & _ & W1). exists q1. eexists. split; [exact Eq1|]. split; [unfold centred_convolution; by rewrite circular_convolution_lookup|].
  unfold series. match goal with |- context [foldl nadd n0 ?l] => assert (W2 : within u (2 * INR (length h)) (map val (products n0 nmul x h i)) (val (foldl nadd n0 l))) end.
  { apply (sum_near val usual u HR Hu); [by rewrite map_length, seq_length| |intros p Hp; by apply (Hx i)].
    refine (Rle_trans _ _ _ _ Hk). apply Rmult_le_compat_r; [exact Hu|]. apply le_INR. lia. }
  unfold within in W1, W2. rewrite (map_map val Rabs) in W1, W2. set (t := Rsum (map val (products n0 nmul x h i))) in *. set (m := Rsum (map (fun p => Rabs (val p)) (products n0 nmul x h i))) in *.
  match goal with |- Rabs (val q1 - val ?q) <= _ => set (q2 := q) in * end.
  replace (val q1 - val q2) with ((val q1 - t) + - (val q2 - t)) by ring. pose proof (Rabs_triang (val q1 - t) (- (val q2 - t))) as T. rewrite (Rabs_Ropp (val q2 - t)) in T.
  refine (Rle_trans _ _ _ T _). rewrite plus_INR, mult_INR in W1. rewrite plus_INR. replace (INR 2) with 2 in W1 by (rewrite INR_IZR_INZ; done).
  replace (4 * (INR (length h) + INR (reg_len r)) * u * m) with (2 * (INR (length h) + 2 * INR (reg_len r)) * u * m + 2 * INR (length h) * u * m) by ring. apply Rplus_le_compat; assumption.
Qed.
Print Assumptions C74_registers_scalar.

(** f64, all real vectors *)
Theorem C74_f64_any : forall `{F : Fft R} r addr s sched b (v o : dvec R) x h, reg_ok r -> (reg_len r <= 16)%nat -> elem_aligned r addr -> half_aligned r addr ->
  reals v x -> reals o h -> @meta_agree R f64_num v o -> vdomain v = Time -> (length h <= length x)%nat -> lends b v (length x) ->
  x <> [] \/ no_threads_for_nothing Large s -> (Z.of_nat (length h + 2 * reg_len r) <= 2 ^ 53)%Z ->
  exists v' b' y, @convolve_signal R f64_num F r addr s sched b v o = Done (v', b', Ok tt) /\ reals v' y /\ length y = length x /\
    forall i, (i < length x)%nat -> exists q, y !! i = Some q /\ let ps := products 0 (fun a b => round radix2 (FLT_exp (-1074) 53) ZnearestE (a * b)) x h i in
      Rabs (q - Rsum ps) <= INR (length h + 2 * reg_len r) * / 2 ^ 52 * Rsum (map Rabs ps).
Proof.
  intros F r addr s sched b v o x h Hr Hw Ha Hh Hv Ho Hm Hd Hl Hb Hs Hn. destruct C67_f64 as [HR _].
  assert (Hk : INR (length h + 2 * reg_len r) * / 2 ^ 53 <= 1).
  { apply (Rmult_le_reg_r (2 ^ 53)); [apply Rlt_gt, pow_lt; lra|]. rewrite Rmult_assoc, Rinv_l, Rmult_1_r, Rmult_1_l by (apply Rgt_not_eq, pow_lt; lra).
    rewrite INR_IZR_INZ, pow_IZR. apply IZR_le. exact Hn. }
  destruct (@C74_convolve_signal_any R f64_num F (fun x => x) _ _ HR (proj1 f64_small_unit) r addr s sched b v o x h Hr Hw Ha Hh Hv Ho Hm Hd Hl Hb Hs Hk)
    as (v' & b' & y & E & Hy & Ly & G).
  - intros y _. split; [apply f64_round_usual|]. cbn [nmul n0 f64_num]. unfold f64_round. rewrite Rmult_0_r. apply round_0, valid_rnd_N.
  - intros i p _ (k & -> & _)%elem_of_list_fmap. apply f64_round_usual.
  - exists v', b', y. split; [exact E|]. split; [exact Hy|]. split; [exact Ly|]. intros i Hi. destruct (G i Hi) as (q & Eq & _ & W). exists q. split; [exact Eq|].
    unfold within in W. rewrite map_id in W. refine (Rle_trans _ _ _ W _). right.
    replace (/ 2 ^ 52) with (2 * / 2 ^ 53); [unfold products; cbn [nmul f64_num]; unfold f64_round, f64_exp; change (@n0 R f64_num) with 0; ring|].
    change (2 ^ 53) with (2 * 2 ^ 52). rewrite Rinv_mult. field.
Qed.
Print Assumptions C74_f64_any.

(** 1100 numbers and 20 taps go through the registers *)
Example C74_example_registers : forall `{F : Fft R}, let x := replicate (11 * 100) (/ 3) in let h := replicate 20 (/ 10) in
  exists v' b' y, @convolve_signal R f64_num F f64x2 48 ex_set [] (SingleBuffer []) (ex_real x) (ex_real h) = Done (v', b', Ok tt) /\ reals v' y /\ length y = (11 * 100)%nat /\
    forall i, (i < 11 * 100)%nat -> exists q, y !! i = Some q /\ let ps := products 0 (fun a b => round radix2 (FLT_exp (-1074) 53) ZnearestE (a * b)) x h i in
      Rabs (q - Rsum ps) <= INR 24 * / 2 ^ 52 * Rsum (map Rabs ps).
Proof.
  intros F x h. assert (Lx : length x = (11 * 100)%nat) by apply replicate_length. assert (Lh : length h = 20%nat) by apply replicate_length.
  pose proof aligned_ex as (Hr & Ha & Hh & _).
  assert (H1 : (reg_len f64x2 <= 16)%nat) by (change (reg_len f64x2) with 2%nat; lia).
  assert (H2 : (length h <= length x)%nat) by (rewrite Lx, Lh; lia).
  assert (H3 : (Z.of_nat (length h + 2 * reg_len f64x2) <= 2 ^ 53)%Z) by (rewrite Lh; change (reg_len f64x2) with 2%nat; lia).
  assert (H4 : lends (SingleBuffer []) (ex_real x) (length x)) by done.
  assert (H5 : x <> []) by (unfold x; done). clearbody x h.
  destruct (C74_f64_any (F := F) f64x2 48 ex_set [] (SingleBuffer []) (ex_real x) (ex_real h) x h Hr H1 Ha Hh (ex_reals x) (ex_reals h) (ex_agree x h) eq_refl H2 H4 (or_introl H5) H3)
    as (v' & b' & y & E & Hy & Ly & G).
  rewrite Lh in G. rewrite Lx in G, Ly. exists v', b', y. split; [exact E|]. split; [exact Hy|]. split; [exact Ly|]. exact G.
Qed.

(** The same for complex vectors, for the real and the imaginary parts *)
Theorem C74_registers_complex : forall {A} `{Num A} (val : A -> R) usual u, rounds val usual u -> 0 <= u ->
  forall r addr s sched b (v o : dvec A) x h, reg_ok r -> elem_aligned r addr -> half_aligned r addr -> point_aligned r addr -> cplx v x -> cplx o h -> lends b v (2 * length x) ->
  (length h < length x)%nat -> (2 * ((length h + 1) / 2 + reg_len r) < length x)%nat -> let k := (length h + reg_len r)%nat in INR k * u <= 1 ->
  (forall y, y ∈ x -> let z := complex_product y (n0, n0) in (usual (fst z) /\ usual (snd z)) /\ val (fst z) = 0 /\ val (snd z) = 0) ->
  (forall i p, (i < length x)%nat -> p ∈ products (n0, n0) complex_product x h i -> usual (fst p) /\ usual (snd p)) ->
  exists v' b' y, convolve_signal_simd r addr s sched b v o = Done (v', b') /\ cplx v' y /\ length y = length x /\
    forall i, (i < length x)%nat -> exists q, y !! i = Some q /\
      within u (2 * INR k) (map (fun p => val (fst p)) (products (n0, n0) complex_product x h i)) (val (fst q)) /\
      within u (2 * INR k) (map (fun p => val (snd p)) (products (n0, n0) complex_product x h i)) (val (snd q)).
Proof.
  intros A HN val usual u HR Hu r addr s sched b v o x h Hr Ha Hh Hp Hv Ho Hb Hlt Hsize k Hk Hx0 Hx.
  destruct (convolve_simd_cnear val usual u HR Hu r addr s sched b v o x h Hr Ha Hh Hp Hv Ho Hb Hlt Hsize Hx0 Hx) as (v' & b' & y & E & Hv' & _ & Hy & G).
  exists v', b', y. split; [exact E|]. split; [exact Hv'|]. split; [exact Hy|]. intros i Hi. destruct (G i Hi) as (q & Eq & N1 & N2). exists q. split; [exact Eq|].
  rewrite <- (map_map fst val), <- (map_map snd val). split; by apply (near_within val usual u Hu).
Qed.
Print Assumptions C74_registers_complex.

(** [convolve_signal] of complex vectors, unless the code takes [overlap_discard] *)
Theorem C74_convolve_signal_complex_any : forall {A} `{Num A} `{F : Fft A} (val : A -> R) usual u, rounds val usual u -> 0 <= u ->
  forall r addr s sched b (v o : dvec A) x h, reg_ok r -> (reg_len r <= 16)%nat -> elem_aligned r addr -> half_aligned r addr -> point_aligned r addr -> cplx v x -> cplx o h ->
  meta_agree v o -> vdomain v = Time -> (length h <= length x)%nat -> lends b v (2 * length x) -> x <> [] \/ no_threads_for_nothing Large s ->
  ~ (50 * 100 < length x /\ 101 < length h /\ 10 * length h < length x)%nat ->
  let k := (length h + reg_len r)%nat in INR k * u <= 1 ->
  (forall y, y ∈ x -> let z := complex_product y (n0, n0) in (usual (fst z) /\ usual (snd z)) /\ val (fst z) = 0 /\ val (snd z) = 0) ->
  (forall i p, (i < length x)%nat -> p ∈ products (n0, n0) complex_product x h i -> usual (fst p) /\ usual (snd p)) ->
  exists v' b' y, convolve_signal r addr s sched b v o = Done (v', b', Ok tt) /\ cplx v' y /\ length y = length x /\
    forall i, (i < length x)%nat -> exists q, y !! i = Some q /\
      within u (2 * INR k) (map (fun p => val (fst p)) (products (n0, n0) complex_product x h i)) (val (fst q)) /\
      within u (2 * INR k) (map (fun p => val (snd p)) (products (n0, n0) complex_product x h i)) (val (snd q)).
Proof.
  intros A HN F val usual u HR Hu r addr s sched b v o x h Hr Hw Ha Hh Hp Hv Ho Hm Hd Hl Hb Hs Hno k Hk Hx0 Hx.
  unfold convolve_signal. assert (Hmd : meta_disagree v o = false) by (destruct (meta_disagree v o) eqn:Em; [by apply meta_disagree_spec in Em | done]).
  rewrite Hmd, Hd. cbn [ddomain_eqb negb]. rewrite (points_cplx v x Hv), (points_cplx o h Ho).
  rewrite (proj2 (Nat.ltb_ge _ _) Hl). rewrite (reals_len v _ (proj2 Hv)), (reals_len o _ (proj2 Ho)), !complex_to_array_length.
  destruct ((1000 <? 2 * length x)%nat && (2 * length h <=? 202)%nat && (11 <? 2 * length h)%nat) eqn:E1.
  - apply andb_prop in E1 as [[E1 E2]%andb_prop E3]. apply Nat.ltb_lt in E1. apply Nat.leb_le in E2. apply Nat.ltb_lt in E3.
    assert (Hq : (2 * ((length h + 1) / 2) <= length h + 1)%nat) by (apply Nat.mul_div_le; lia).
    destruct (C74_registers_complex val usual u HR Hu r addr s sched b v o x h) as (v' & b' & y & E & Hv' & G); try done.
    { clear -E1 E2. lia. } { clear -Hq E1 E2 Hw. lia. }
    exists v', b', y. split; [|split; [exact Hv'|exact G]]. by rewrite E.
  - assert (E4 : (100 * 100 <? 2 * length x)%nat && (15 <? 2 * length h)%nat && (10 * (2 * length h) <? 2 * length x)%nat = false).
    { apply not_true_is_false. intros [[E2 E3]%andb_prop E4]%andb_prop. apply Nat.ltb_lt in E2. apply Nat.ltb_lt in E3. apply Nat.ltb_lt in E4.
      change (100 * 100)%nat with (10 * 1000)%nat in E2. change (50 * 100)%nat with (5 * 1000)%nat in Hno.
      apply Hno. split; [clear -E2; lia|]. split; [|clear -E4; lia]. destruct (Nat.lt_ge_cases 101 (length h)) as [|Hge]; [done|]. exfalso.
      apply andb_false_iff in E1 as [[E1|E1]%andb_false_iff|E1]; [apply Nat.ltb_ge in E1|apply Nat.leb_gt in E1|apply Nat.ltb_ge in E1]; clear -E1 E2 E3 Hge; lia. }
    rewrite E4. cbn [andb].
    destruct (convolve_scalar_cplx s sched b v o x h Hv Ho Hl Hb Hs) as (v' & b' & E & Hv' & _). rewrite E.
    exists v', b', (centred_convolution (n0, n0) complex_sum complex_product x h). split; [done|split; [exact Hv'|split; [apply circular_convolution_length|]]].
    intros i Hi. eexists. split; [unfold centred_convolution; by rewrite circular_convolution_lookup|]. unfold series.
    apply (csum_near val usual u HR Hu); [rewrite map_length, seq_length; unfold k; lia|exact Hk|]. intros p Hp'. by apply (Hx i).
Qed.
Print Assumptions C74_convolve_signal_complex_any.

(** f64: the products have rounding errors of their own, the real and the imaginary parts are sums of them *)
Definition f64_product (x y : R * R) : R * R :=
  let rnd := round radix2 (FLT_exp (-1074) 53) ZnearestE in
  (rnd (rnd (fst x * fst y) - rnd (snd x * snd y)), rnd (rnd (fst x * snd y) + rnd (snd x * fst y))).
Theorem C74_f64_complex_any : forall `{F : Fft R} r addr s sched b (v o : dvec R) x h, reg_ok r -> (reg_len r <= 16)%nat -> elem_aligned r addr -> half_aligned r addr -> point_aligned r addr ->
  cplx v x -> cplx o h -> @meta_agree R f64_num v o -> vdomain v = Time -> (length h <= length x)%nat -> lends b v (2 * length x) ->
  x <> [] \/ no_threads_for_nothing Large s -> ~ (50 * 100 < length x /\ 101 < length h /\ 10 * length h < length x)%nat -> (Z.of_nat (length h + reg_len r) <= 2 ^ 53)%Z ->
  exists v' b' y, @convolve_signal R f64_num F r addr s sched b v o = Done (v', b', Ok tt) /\ cplx v' y /\ length y = length x /\
    forall i, (i < length x)%nat -> exists q, y !! i = Some q /\ let ps := products (0, 0) f64_product x h i in
      Rabs (fst q - Rsum (map fst ps)) <= INR (length h + reg_len r) * / 2 ^ 52 * Rsum (map (fun p => Rabs (fst p)) ps) /\
      Rabs (snd q - Rsum (map snd ps)) <= INR (length h + reg_len r) * / 2 ^ 52 * Rsum (map (fun p => Rabs (snd p)) ps).
Proof.
  intros F r addr s sched b v o x h Hr Hw Ha Hh Hp Hv Ho Hm Hd Hl Hb Hs Hno Hn. destruct C67_f64 as [HR _].
  assert (Hk : INR (length h + reg_len r) * / 2 ^ 53 <= 1).
  { apply (Rmult_le_reg_r (2 ^ 53)); [apply Rlt_gt, pow_lt; lra|]. rewrite Rmult_assoc, Rinv_l, Rmult_1_r, Rmult_1_l by (apply Rgt_not_eq, pow_lt; lra).
    rewrite INR_IZR_INZ, pow_IZR. apply IZR_le. exact Hn. }
  assert (Hz : forall a, f64_round (a * 0) = 0). { intros a. unfold f64_round. rewrite Rmult_0_r. apply round_0, valid_rnd_N. }
  assert (H0 : f64_round 0 = 0) by (apply round_0, valid_rnd_N).
  destruct (@C74_convolve_signal_complex_any R f64_num F (fun x => x) _ _ HR (proj1 f64_small_unit) r addr s sched b v o x h Hr Hw Ha Hh Hp Hv Ho Hm Hd Hl Hb Hs Hno Hk)
    as (v' & b' & y & E & Hy & Ly & G).
  - intros [a c] _. split; [split; apply f64_round_usual|]. split; cbn [complex_product fst snd nmul nsub nadd n0 f64_num]; rewrite !Hz, ?Rminus_0_r, ?Rplus_0_r; apply H0.
  - intros i p _ (k & -> & _)%elem_of_list_fmap. split; apply f64_round_usual.
  - exists v', b', y. split; [exact E|]. split; [exact Hy|]. split; [exact Ly|]. intros i Hi. destruct (G i Hi) as (q & Eq & W1 & W2). exists q. split; [exact Eq|].
    unfold within in W1, W2. rewrite (map_map _ Rabs) in W1. rewrite (map_map _ Rabs) in W2.
    assert (Hu2 : 2 * INR (length h + reg_len r) * / 2 ^ 53 = INR (length h + reg_len r) * / 2 ^ 52).
    { change (2 ^ 53) with (2 * 2 ^ 52). rewrite Rinv_mult. field. }
    rewrite Hu2 in W1, W2. split; [exact W1|exact W2].
Qed.
Print Assumptions C74_f64_complex_any.
Definition ex_cplx_vec (l : list (R * R)) : dvec R := DVec (Storage KVec (length (complex_to_array l)) (complex_to_array l)) 1 DTime NComplex (length (complex_to_array l)).
(** 1100 points and 20 taps go through the registers, 3 and 2 don't *)
Example C74_example_complex : forall `{F : Fft R} (x h : list (R * R)), (length x = 11 * 100 /\ length h = 20)%nat \/ (length x = 3 /\ length h = 2)%nat ->
  exists v' b' y, @convolve_signal R f64_num F f64x2 48 ex_set [] (SingleBuffer []) (ex_cplx_vec x) (ex_cplx_vec h) = Done (v', b', Ok tt) /\ cplx v' y /\ length y = length x /\
    forall i, (i < length x)%nat -> exists q, y !! i = Some q /\ let ps := products (0, 0) f64_product x h i in
      Rabs (fst q - Rsum (map fst ps)) <= INR (length h + 2) * / 2 ^ 52 * Rsum (map (fun p => Rabs (fst p)) ps) /\
      Rabs (snd q - Rsum (map snd ps)) <= INR (length h + 2) * / 2 ^ 52 * Rsum (map (fun p => Rabs (snd p)) ps).
Proof.
  intros F x h Hl. pose proof aligned_ex as (Hr & Ha & Hh & Hp). assert (H1 : (reg_len f64x2 <= 16)%nat) by (change (reg_len f64x2) with 2%nat; lia).
  assert (C : forall l, cplx (ex_cplx_vec l) l). { intros l. split; [done|]. apply (vdata_intro _ _ []); [by rewrite app_nil_r | done]. }
  assert (M : @meta_agree R f64_num (ex_cplx_vec x) (ex_cplx_vec h)). { destruct (ex_agree [] []) as (_ & _ & M). split; [done|]. split; [done|]. exact M. }
  apply (C74_f64_complex_any (F := F) f64x2 48 ex_set [] (SingleBuffer []) (ex_cplx_vec x) (ex_cplx_vec h) x h Hr H1 Ha Hh Hp (C x) (C h) M eq_refl).
  - lia.
  - done.
  - left. intros ->. cbn in Hl. lia.
  - lia.
  - change (reg_len f64x2) with 2%nat. lia.
Qed.
