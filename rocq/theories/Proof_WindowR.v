(** Windows and responses on exact real numbers. *)
From Verif Require Export Proof_Response Spec_Window.
Local Open Scope R_scope.

Lemma INR_2 : INR 2 = 2.
Proof. simpl. lra. Qed.

Lemma INR_mirror n i : (i < n)%nat -> INR (n - 1 - i) = INR n - 1 - INR i.
Proof. intros Hi. rewrite !minus_INR by lia. simpl (INR 1). lra. Qed.

Lemma triangular_mirrored n : mirrored (w_fun (triangular_window (A := R))) n.
Proof.
  intros i Hi. unfold triangular_window. cbn -[INR Rabs]. rewrite INR_mirror by done. f_equal.
  rewrite <- Rabs_Ropp. f_equal. unfold Rdiv. rewrite INR_2. lra.
Qed.

Lemma cos_mirror k n i : (i < n)%nat -> cos (INR (2 * k) * PI * INR i / (INR n - 1)) = cos (INR (2 * k) * PI * INR (n - 1 - i) / (INR n - 1)).
Proof.
  intros Hi. destruct (decide (n = 1%nat)) as [->|Hn]; [assert (i = 0%nat) as -> by lia; done|].
  assert (Hn' : INR n - 1 <> 0). { assert (INR 1 < INR n) by (apply lt_INR; lia). simpl in H. lra. }
  rewrite INR_mirror by done.
  replace (INR (2 * k) * PI * (INR n - 1 - INR i) / (INR n - 1)) with (- (INR (2 * k) * PI * INR i / (INR n - 1)) + 2 * INR k * PI).
  2:{ rewrite mult_INR, INR_2. field. done. }
  by rewrite cos_period, cos_neg.
Qed.

Lemma hamming_mirrored alpha n : mirrored (w_fun (hamming_window (A := R) alpha)) n.
Proof. intros i Hi. unfold hamming_window. cbn -[INR]. f_equal. f_equal. apply (cos_mirror 1 n i Hi). Qed.

Lemma blackman_mirrored n : mirrored (w_fun (blackman_harris_window (A := R))) n.
Proof.
  intros i Hi. unfold blackman_harris_window. cbn -[INR dec5].
  pose proof (cos_mirror 1 n i Hi) as E1. pose proof (cos_mirror 2 n i Hi) as E2. pose proof (cos_mirror 3 n i Hi) as E3.
  cbn [Nat.mul Nat.add] in E1, E2, E3. rewrite E1, E2, E3. done.
Qed.
Lemma rectangular_mirrored n : mirrored (w_fun (rectangular_window (A := R))) n.
Proof. done. Qed.

Lemma Reqb_opp x : Reqb (- x) 0 = Reqb x 0.
Proof. unfold Reqb. destruct (Req_EM_T (- x) 0), (Req_EM_T x 0); try done; lra. Qed.

Lemma raised_cosine_time_even rolloff : even_function (r_calc (raised_cosine_time (A := R) rolloff)).
Proof.
  intros x. unfold raised_cosine_time. cbn -[INR Rabs Reqb]. rewrite Reqb_opp, Rabs_Ropp.
  destruct (Reqb x 0) eqn:E; [done|]. assert (Hx : x <> 0) by (intros ->; by rewrite (proj2 (Reqb_true 0 0) eq_refl) in E).
  destruct (Reqb (Rabs x) _); [done|].
  pose proof PI_RGT_0.
  replace (PI * - x) with (- (PI * x)) by lra. replace (- (PI * x) * rolloff) with (- (PI * x * rolloff)) by lra. rewrite sin_neg, cos_neg.
  set (y := 1 - _). set (z := 1 - _). replace y with z by (subst y z; lra).
  transitivity (sin (PI * x) * cos (PI * x * rolloff) / (PI * x) / z); [|done]. unfold Rdiv. f_equal. field. split; lra.
Qed.
Lemma raised_cosine_freq_even rolloff : even_function (r_calc (raised_cosine_freq (A := R) rolloff)).
Proof. intros x. unfold raised_cosine_freq. cbn -[INR Rabs Rleb Rltb]. by rewrite Rabs_Ropp. Qed.
Lemma sinc_time_even : even_function (r_calc (sinc_time (A := R))).
Proof.
  intros x. unfold sinc_time. cbn -[Reqb]. rewrite Reqb_opp.
  destruct (Reqb x 0) eqn:E; [done|]. assert (Hx : x <> 0) by (intros ->; by rewrite (proj2 (Reqb_true 0 0) eq_refl) in E).
  rewrite Ropp_mult_distr_r_reverse, sin_neg. pose proof PI_RGT_0. field. split; lra.
Qed.
Lemma sinc_freq_even : even_function (r_calc (sinc_freq (A := R))).
Proof. intros x. unfold sinc_freq. cbn -[Rabs Rleb]. by rewrite Rabs_Ropp. Qed.

(** *** apply and unapply *)
Lemma windowed_back {T} (sc : T -> R -> T) (w : nat -> nat -> R) (l l1 l2 : list T) :
  (forall i x, (i < length l)%nat -> sc (sc x (w i (length l))) (1 / w i (length l)) = x) ->
  windowed sc w l l1 -> windowed sc (fun i n => 1 / w i n) l1 l2 -> l2 = l.
Proof.
  intros Hw [L1 W1] [L2 W2]. apply list_eq. intros i. destruct (l !! i) as [x|] eqn:E.
  - rewrite (W2 _ _ (W1 i x E)), L1. f_equal. apply Hw. by apply lookup_lt_Some in E.
  - apply lookup_ge_None in E. apply lookup_ge_None. lia.
Qed.

Lemma same_rest_trans {A} (a b c : dvec A) : same_rest a b -> same_rest b c -> same_rest a c.
Proof. unfold same_rest. intros (A1 & A2 & A3 & A4) (B1 & B2 & B3 & B4). rewrite A3 in B4. split_and!; congruence. Qed.
Lemma same_meta_trans {A} (a b c : dvec A) : same_meta a b -> same_meta b c -> same_meta a c.
Proof. unfold same_meta. intros (A1 & A2 & A3) (B1 & B2 & B3). split_and!; congruence. Qed.

Theorem unapply_apply (w : window R) s sched sched' (v : dvec R) :
  (w_symmetric w = true -> mirrored (w_fun w) (points v) /\ pairs_up s (points v)) ->
  (w_symmetric w = false -> (0 < points v)%nat \/ no_threads_for_nothing Medium s) ->
  (forall i, (i < points v)%nat -> w_fun w i (points v) <> 0) -> wf v ->
  exists v1 v2, apply_window w s sched v = Done v1 /\ unapply_window w s sched' v1 = Done v2 /\ vdata v2 = vdata v /\ same_meta v v2 /\ same_rest v v2.
Proof.
  intros Hs Hn Hw Hwf. destruct (apply_window_spec w s sched v Hs Hn) as [Hr Hc].
  destruct (reals_or_cplx v Hwf) as [[l Hv]|[c Hv]].
  - destruct (Hr l Hv) as (v1 & l1 & E1 & Hv1 & W1 & M1 & R1). exists v1.
    assert (Hp : points v1 = points v) by (rewrite (points_reals v l Hv), (points_reals v1 l1 Hv1); apply W1).
    rewrite <- Hp in Hs, Hn. destruct (unapply_window_spec w s sched' v1 Hs Hn) as [Hr' _].
    destruct (Hr' l1 Hv1) as (v2 & l2 & E2 & Hv2 & W2 & M2 & R2). exists v2. split_and!; [done | done | | by eapply same_meta_trans | by eapply same_rest_trans].
    rewrite (proj2 Hv2), (proj2 Hv). f_equal. apply (windowed_back _ _ l l1 l2) in W2; [done | | done].
    intros i x Hi. simpl. rewrite <- (points_reals v l Hv) in *. field. by apply Hw.
  - destruct (Hc c Hv) as (v1 & l1 & E1 & Hv1 & W1 & M1 & R1). exists v1.
    assert (Hp : points v1 = points v) by (rewrite (points_cplx v c Hv), (points_cplx v1 l1 Hv1); apply W1).
    rewrite <- Hp in Hs, Hn. destruct (unapply_window_spec w s sched' v1 Hs Hn) as [_ Hr'].
    destruct (Hr' l1 Hv1) as (v2 & l2 & E2 & Hv2 & W2 & M2 & R2). exists v2. split_and!; [done | done | | by eapply same_meta_trans | by eapply same_rest_trans].
    rewrite (proj2 Hv2), (proj2 Hv). do 2 f_equal. apply (windowed_back _ _ c l1 l2) in W2; [done | | done].
    intros i [x y] Hi. unfold complex_product. simpl. rewrite <- (points_cplx v c Hv) in *. f_equal; field; by apply Hw.
Qed.

(** *** Frequency responses *)
Lemma half_INR n : INR (n - n mod 2) / 2 = INR (n / 2).
Proof.
  pose proof (Nat.div_mod n 2 ltac:(lia)) as E. replace (n - n mod 2)%nat with (2 * (n / 2))%nat by lia. rewrite mult_INR, INR_2. lra.
Qed.
Lemma pos_axis n i : place n i / (INR (n - n mod 2) / 2) = axis n i.
Proof. unfold place, axis. rewrite half_INR. f_equal. lra. Qed.

Section resp.
Context {TT : Type} (mul : TT -> TT -> TT).
Hypothesis mul_assoc : forall x y z, mul (mul x y) z = mul x (mul y z).

Lemma response_points sym ratio (scale : TT) fun_ s sched (l : list TT) :
  (sym = true -> even_function fun_ /\ enough_pieces s (length l)) -> (sym = false -> (0 < length l)%nat \/ no_threads_for_nothing Medium s) ->
  multiply_function_points mul sym false ratio scale fun_ s sched (length l) l =
    Done (imap (fun i x => mul x (mul scale (fun_ (axis (length l) i * ratio)))) l).
Proof.
  intros Hs Hn. destruct sym.
  - destruct (Hs eq_refl) as [He Hp].
    destruct (multiply_function_folded mul mul_assoc false ratio scale fun_ s sched (length l) l Hp) as (h & _ & _ & _ & ->).
    f_equal. apply imap_ext. intros i x _. do 2 f_equal. cbn [fft_swap_x negb]. unfold fft_swap_x. cbn [negb ndiv nmul Rnum].
    destruct (i <? h); [by rewrite pos_axis|]. rewrite <- (He (axis (length l) i * ratio)). f_equal. rewrite <- pos_axis. cbn [nopp Rnum].
    unfold Rdiv. lra.
  - rewrite (multiply_function_plain mul mul_assoc).
    + f_equal. apply imap_ext. intros i x _. do 2 f_equal. unfold fft_swap_x. cbn [negb ndiv nmul Rnum]. by rewrite pos_axis.
    + destruct (Hn eq_refl); [left; by destruct l; [simpl in *; lia|] | by right].
Qed.
End resp.

Lemma cmul_assoc_R (x y z : R * R) : cmul (cmul x y) z = cmul x (cmul y z).
Proof. unfold cmul. simpl. f_equal; ring. Qed.

Lemma responded_imap {C T} (sc : T -> C -> T) (h : R -> C) ratio (l : list T) :
  responded sc h ratio l (imap (fun i x => sc x (h (axis (length l) i * ratio))) l).
Proof. split; [apply imap_length|]. intros i x Hi. by rewrite list_lookup_imap, Hi. Qed.

Theorem multiply_real_response_spec (h : response R R) ratio s sched (v : dvec R) :
  vdomain v = Frequency ->
  (r_symmetric h = true -> even_function (r_calc h) /\ enough_pieces s (points v)) ->
  (r_symmetric h = false -> (0 < points v)%nat \/ no_threads_for_nothing Medium s) ->
  (forall l, reals v l -> exists v' l', multiply_real_response h ratio s sched v = Done v' /\ reals v' l' /\
     responded (fun x y => x * (ratio * y)) (r_calc h) ratio l l' /\ same_meta v v' /\ same_rest v v') /\
  (forall c, cplx v c -> exists v' c', multiply_real_response h ratio s sched v = Done v' /\ cplx v' c' /\
     responded (fun x y => (fst x * (ratio * y), snd x * (ratio * y))) (r_calc h) ratio c c' /\ same_meta v v' /\ same_rest v v').
Proof.
  intros Hd Hs Hn. unfold multiply_real_response. rewrite Hd. cbn [ddomain_eqb negb]. split.
  - intros l Hv. rewrite (proj1 Hv). rewrite (points_reals v l Hv) in Hs, Hn.
    pose proof (response_points nmul Rmult_assoc _ ratio ratio (r_calc h) s sched l Hs Hn) as Hm.
    destruct (on_reals_spec _ v l _ Hv Hm (imap_length _ _)) as (v' & -> & Hv' & ? & ?). exists v'. eexists. split_and!; [done | exact Hv' | | done | done].
    apply (responded_imap (fun x y => x * (ratio * y))).
  - intros c Hv. rewrite (proj1 Hv). rewrite (points_cplx v c Hv) in Hs, Hn.
    assert (Hs' : r_symmetric h = true -> even_function (fun x => (r_calc h x, n0)) /\ enough_pieces s (length c)).
    { intros E. destruct (Hs E) as [He ?]. split; [|done]. intros x. by rewrite He. }
    pose proof (response_points cmul cmul_assoc_R _ ratio (ratio, n0) (fun x => (r_calc h x, n0)) s sched c Hs' Hn) as Hm.
    destruct (on_points_spec _ v c _ Hv Hm (imap_length _ _)) as (v' & -> & Hv' & ? & ?). exists v'. eexists. split_and!; [done | exact Hv' | | done | done].
    match goal with |- responded _ _ _ _ ?l' => replace l' with (imap (fun i x => (fun x y => (fst x * (ratio * y), snd x * (ratio * y))) x (r_calc h (axis (length c) i * ratio))) c) end.
    + apply (responded_imap (fun (x : R * R) y => (fst x * (ratio * y), snd x * (ratio * y)))).
    + apply imap_ext. intros i [x y] _. unfold cmul. simpl. f_equal; ring.
Qed.

Theorem multiply_complex_response_spec (h : response R (R * R)) ratio s sched (v : dvec R) c :
  vdomain v = Frequency -> cplx v c ->
  (r_symmetric h = true -> even_function (r_calc h) /\ enough_pieces s (length c)) ->
  (r_symmetric h = false -> (0 < length c)%nat \/ no_threads_for_nothing Medium s) ->
  exists v' c', multiply_complex_response h ratio s sched v = Done v' /\ cplx v' c' /\
     responded (fun x y => complex_product x (ratio * fst y, ratio * snd y)) (r_calc h) ratio c c' /\ same_meta v v' /\ same_rest v v'.
Proof.
  intros Hd Hv Hs Hn. unfold multiply_complex_response. rewrite Hd, (proj1 Hv). cbn [ddomain_eqb negb orb].
  pose proof (response_points cmul cmul_assoc_R _ ratio (ratio, n0) (r_calc h) s sched c Hs Hn) as Hm.
  destruct (on_points_spec _ v c _ Hv Hm (imap_length _ _)) as (v' & -> & Hv' & ? & ?). exists v'. eexists. split_and!; [done | exact Hv' | | done | done].
  match goal with |- responded ?sc _ _ _ ?l' => replace l' with (imap (fun i x => sc x (r_calc h (axis (length c) i * ratio))) c) end.
  - apply (responded_imap (fun x y => complex_product x (ratio * fst y, ratio * snd y))).
  - apply imap_ext. intros i [x y] _. unfold complex_product, cmul. destruct (r_calc h _). simpl. f_equal; ring.
Qed.

Theorem response_invalid (h : response R R) (hc : response R (R * R)) ratio s sched (v : dvec R) :
  (vdomain v = Time -> multiply_real_response h ratio s sched v = Done (mark_vector_as_invalid v)) /\
  (vdomain v = Time \/ is_complex v = false -> multiply_complex_response hc ratio s sched v = Done (mark_vector_as_invalid v)).
Proof.
  unfold multiply_real_response, multiply_complex_response. split.
  - intros ->. done.
  - intros [->| ->]; [by rewrite orb_true_r|done].
Qed.
