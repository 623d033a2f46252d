(** C26, C42, C46: windows and frequency responses. *)
From Verif Require Import NumsFlt Proof_WindowR Spec_Complex.
From Verif Require Import Spec_Window Model_Chunk.
Local Open Scope nat_scope.

Definition ex_vec {A} `{Num A} (ns : nspace) (d : dmarker) (l : list A) : dvec A := DVec (Storage KVec (length l) l) n1 d ns (length l).
Definition one_core : settings := with_thresholds 1 2 3 2 3.
Definition two_cores : settings := with_thresholds 2 2 3 2 3.
Definition four_cores : settings := with_thresholds 4 2 3 2 3.

(** * C26 Windows *)

(** [pairs_up] and [mirrored] are only needed for windows which declare themselves symmetric. *)
Theorem C26_apply : forall {A} `{Num A} (w : window A) s sched (v : dvec A),
  (w_symmetric w = true -> mirrored (w_fun w) (points v) /\ pairs_up s (points v)) ->
  (w_symmetric w = false -> 0 < points v \/ no_threads_for_nothing Medium s) ->
  applies_factors (w_fun w) (apply_window w s sched) v.
Proof. exact @apply_window_spec. Qed.
Print Assumptions C26_apply.

(** Without a hypothesis about the values of the window (for floating point numbers both halves need not be equal in the last bit) *)
Theorem C26_apply_first_half : forall {A} `{Num A} (w : window A) s sched (v : dvec A), w_symmetric w = true -> pairs_up s (points v) ->
  applies_factors (fun i n => w_fun w (Nat.min i (n - 1 - i)) n) (apply_window w s sched) v.
Proof. exact @apply_window_folded. Qed.
Print Assumptions C26_apply_first_half.

Theorem C26_unapply : forall (w : window R) s sched sched' (v : dvec R),
  (w_symmetric w = true -> mirrored (w_fun w) (points v) /\ pairs_up s (points v)) ->
  (w_symmetric w = false -> (0 < points v)%nat \/ no_threads_for_nothing Medium s) ->
  (forall i, (i < points v)%nat -> w_fun w i (points v) <> 0%R) -> wf v ->
  exists v1 v2, apply_window w s sched v = Done v1 /\ unapply_window w s sched' v1 = Done v2 /\ vdata v2 = vdata v /\ same_meta v v2 /\ same_rest v v2.
Proof. exact unapply_apply. Qed.
Print Assumptions C26_unapply.

Example C26_example : exists v', apply_window (Window true (fun i n => Z.of_nat (Nat.min i (n - 1 - i)))) one_core [] (ex_vec NReal DTime [5; 6; 7; 8; 9]%Z) = Done v' /\
  reals v' [0; 6; 14; 8; 0]%Z.
Proof. eexists. split_and!; try (vm_compute; done). Qed.
Example C26_example_threads : exists v', apply_window (Window true (fun i n => Z.of_nat (1 + Nat.min i (n - 1 - i)))) four_cores [] (ex_vec NComplex DTime (repeat 1%Z 16)) = Done v' /\
  cplx v' [(1, 1); (2, 2); (3, 3); (4, 4); (4, 4); (3, 3); (2, 2); (1, 1)]%Z.
Proof. eexists. split_and!; try (vm_compute; done). Qed.
Example C26_example_applies : applies_factors (fun i n => Z.of_nat (1 + Nat.min i (n - 1 - i)))
  (apply_window (Window true (fun i n => Z.of_nat (1 + Nat.min i (n - 1 - i)))) two_cores []) (ex_vec NReal DTime (map Z.of_nat (seq 0 8))).
Proof.
  apply C26_apply; cbn [w_symmetric w_fun]; [|done]. intros _. split.
  - intros i Hi. change (points _) with 8 in *. do 2 f_equal. lia.
  - right. vm_compute. split_and!; [lia | lia | done].
Qed.
Example C26_example_unapply : exists v1 v2, let v := ex_vec NReal DTime [1; 2; 3]%R in let w := rectangular_window (A := R) in
  apply_window w one_core [] v = Done v1 /\ unapply_window w one_core [] v1 = Done v2 /\ vdata v2 = vdata v.
Proof.
  destruct (C26_unapply rectangular_window one_core [] [] (ex_vec NReal DTime [1; 2; 3]%R)) as (v1 & v2 & ? & ? & ? & _ & _).
  - intros _. split; [done|]. left. split; [done|]. vm_compute. lia.
  - done.
  - intros i _. simpl. lra.
  - unfold wf. vm_compute. split; [lia|done].
  - exists v1, v2. done.
Qed.

(** What is missing: a window which declares itself symmetric can not be applied to an empty vector or to a single point ... *)
Theorem C26_short_refuted : forall {A} `{Num A} (w : window A) s sched (v : dvec A),
  w_symmetric w = true -> wf v -> points v < 2 -> threads s (points v) <= 1 ->
  apply_window w s sched v = Panicked /\ unapply_window w s sched v = Panicked.
Proof. exact @apply_window_short. Qed.
Print Assumptions C26_short_refuted.
Example C26_short_example : let v := ex_vec NReal DTime [5%Z] in
  wf v /\ apply_window rectangular_window one_core [] v = Panicked.
Proof. split_and!; [vm_compute; split; [lia|done] | vm_compute; done]. Qed.

(** ... and with several threads and a number of points which is no multiple of twice the number of threads points get a factor of another point ... *)
Theorem C26_uneven_refuted : exists (w : window Z) (v v' : dvec Z), w_symmetric w = true /\ mirrored (w_fun w) (points v) /\
  reals v [10; 10; 10; 10; 10; 10; 10]%Z /\ apply_window w two_cores [] v = Done v' /\
  (w_fun w 1 7 = 2 /\ w_fun w 5 7 = 2 /\ w_fun w 2 7 = 3)%Z /\ reals v' [10; 20; 30; 40; 40; 30; 10]%Z.
Proof.
  exists (Window true (fun i n => Z.of_nat (1 + Nat.min i (n - 1 - i)))), (ex_vec NReal DTime [10; 10; 10; 10; 10; 10; 10]%Z). eexists.
  split_and!; try (vm_compute; done). intros i Hi. change (points _) with 7 in *. cbn [w_fun]. do 2 f_equal. lia.
Qed.
Print Assumptions C26_uneven_refuted.
(** ... or no factor at all. *)
Theorem C26_untouched_refuted : exists (w : window Z) (v v' : dvec Z), w_symmetric w = true /\ mirrored (w_fun w) (points v) /\
  reals v [10; 10; 10; 10; 10]%Z /\ apply_window w two_cores [] v = Done v' /\ (forall i, w_fun w i 5 = 2%Z) /\ reals v' [20; 20; 10; 10; 20]%Z.
Proof.
  exists (Window true (fun i n => 2%Z)), (ex_vec NReal DTime [10; 10; 10; 10; 10]%Z). eexists. split_and!; try (vm_compute; done).
Qed.
Print Assumptions C26_untouched_refuted.

(** * C42 Symmetry of the built in functions *)

Theorem C42_windows : forall n alpha, mirrored (w_fun (triangular_window (A := R))) n /\ mirrored (w_fun (hamming_window (A := R) alpha)) n /\
  mirrored (w_fun (hamming_default (A := R))) n /\ mirrored (w_fun (blackman_harris_window (A := R))) n /\ mirrored (w_fun (rectangular_window (A := R))) n.
Proof.
  intros n alpha. split_and!; [apply triangular_mirrored | apply hamming_mirrored | apply hamming_mirrored | apply blackman_mirrored | apply rectangular_mirrored].
Qed.
Print Assumptions C42_windows.
Theorem C42_functions : forall rolloff, even_function (r_calc (raised_cosine_time (A := R) rolloff)) /\ even_function (r_calc (raised_cosine_freq (A := R) rolloff)) /\
  even_function (r_calc (sinc_time (A := R))) /\ even_function (r_calc (sinc_freq (A := R))).
Proof.
  intros rolloff. split_and!; [apply raised_cosine_time_even | apply raised_cosine_freq_even | apply sinc_time_even | apply sinc_freq_even].
Qed.
Print Assumptions C42_functions.
(** so that the built in windows satisfy the hypotheses of C26 *)
Theorem C42_apply_builtin : forall (w : window R) s sched (v : dvec R),
  w = triangular_window \/ (exists alpha, w = hamming_window alpha) \/ w = blackman_harris_window \/ w = rectangular_window ->
  pairs_up s (points v) -> applies_factors (w_fun w) (apply_window w s sched) v.
Proof.
  intros w s sched v Hw Hp. apply apply_window_spec.
  - intros _. split; [|done]. destruct Hw as [->|[[alpha ->]|[->| ->]]];
      [apply triangular_mirrored | apply hamming_mirrored | apply blackman_mirrored | apply rectangular_mirrored].
  - destruct Hw as [->|[[alpha ->]|[->| ->]]]; done.
Qed.
Print Assumptions C42_apply_builtin.
Example C42_example : w_fun (triangular_window (A := R)) 0 2 = (1 / 2)%R.
Proof. cbn. replace ((0 - (1 + 1 - 1) / (1 + 1)) / ((1 + 1) / (1 + 1)))%R with (- (1 / 2))%R by lra. rewrite Rabs_Ropp, Rabs_right by lra. lra. Qed.

(** * C46 Frequency responses *)

Theorem C46_real_response : forall (h : response R R) ratio s sched (v : dvec R),
  vdomain v = Frequency ->
  (r_symmetric h = true -> even_function (r_calc h) /\ enough_pieces s (points v)) ->
  (r_symmetric h = false -> (0 < points v)%nat \/ no_threads_for_nothing Medium s) ->
  (forall l, reals v l -> exists v' l', multiply_real_response h ratio s sched v = Done v' /\ reals v' l' /\
     responded (fun x y => x * (ratio * y))%R (r_calc h) ratio l l' /\ same_meta v v' /\ same_rest v v') /\
  (forall c, cplx v c -> exists v' c', multiply_real_response h ratio s sched v = Done v' /\ cplx v' c' /\
     responded (fun x y => (fst x * (ratio * y), snd x * (ratio * y)))%R (r_calc h) ratio c c' /\ same_meta v v' /\ same_rest v v').
Proof. exact multiply_real_response_spec. Qed.
Print Assumptions C46_real_response.
Theorem C46_complex_response : forall (h : response R (R * R)) ratio s sched (v : dvec R) c,
  vdomain v = Frequency -> cplx v c ->
  (r_symmetric h = true -> even_function (r_calc h) /\ enough_pieces s (length c)) ->
  (r_symmetric h = false -> (0 < length c)%nat \/ no_threads_for_nothing Medium s) ->
  exists v' c', multiply_complex_response h ratio s sched v = Done v' /\ cplx v' c' /\
     responded (fun x y => complex_product x (ratio * fst y, ratio * snd y))%R (r_calc h) ratio c c' /\ same_meta v v' /\ same_rest v v'.
Proof. exact multiply_complex_response_spec. Qed.
Print Assumptions C46_complex_response.
(** Vectors which are not in frequency domain (for complex responses: or not complex) are poisoned. *)
Theorem C46_wrong_domain : forall (h : response R R) (hc : response R (R * R)) ratio s sched (v : dvec R),
  (vdomain v = Time -> exists v', multiply_real_response h ratio s sched v = Done v' /\ poisoned v') /\
  (vdomain v = Time \/ is_complex v = false -> exists v', multiply_complex_response hc ratio s sched v = Done v' /\ poisoned v').
Proof.
  intros h hc ratio s sched v. destruct (response_invalid h hc ratio s sched v) as [H1 H2]. split.
  - intros Hd. eexists. split; [by apply H1 | done].
  - intros Hd. eexists. split; [by apply H2 | done].
Qed.
Print Assumptions C46_wrong_domain.

(** The hypotheses hold with one thread and two or more points, and with any number of threads if there are many points. *)
Theorem C46_enough_pieces : forall s n, 2 <= n -> 0 < threads s n -> (threads s n = 1 \/ 2 * threads s n * (2 * threads s n) <= n) -> enough_pieces s n.
Proof.
  intros s n Hn Ht Hk. split; [done|]. set (k := 2 * threads s n) in *. assert (Hk0 : 0 < k) by lia. exists ((n + (k - 1)) / k).
  pose proof (Nat.div_mod (n + (k - 1)) k). pose proof (Nat.mod_upper_bound (n + (k - 1)) k). set (q := (n + (k - 1)) / k) in *. clearbody q.
  split_and!; [nia | destruct Hk; nia | intros q' Hq'; nia].
Qed.
Print Assumptions C46_enough_pieces.
Example C46_example : exists v' l', multiply_real_response (sinc_freq (A := R)) 2%R one_core [] (ex_vec NReal DFreq [1; 2; 3]%R) = Done v' /\ reals v' l' /\
  l' !! 1 = Some (2 * (2 * 1))%R.
Proof.
  destruct (C46_real_response sinc_freq 2%R one_core [] (ex_vec NReal DFreq [1; 2; 3]%R)) as [Hr _]; try done.
  - intros _. split; [apply sinc_freq_even|]. apply C46_enough_pieces; [vm_compute; lia | vm_compute; lia | by left].
  - destruct (Hr [1; 2; 3]%R) as (v' & l' & -> & Hv' & [_ Hl] & _); [done|]. exists v', l'. split_and!; [done | done|]. rewrite (Hl 1 2%R) by done. do 3 f_equal.
    unfold axis. cbn -[Rabs Rleb]. replace ((1 - 1) / 1 * 2)%R with 0%R by lra. rewrite Rabs_R0. unfold Rleb. destruct (Rle_dec 0 1); [done|lra].
Qed.

(** What is missing: with few points and many threads some points are not multiplied, ... *)
Theorem C46_untouched_refuted : exists (h : response Z Z) (v v' : dvec Z), r_symmetric h = true /\ (forall x, r_calc h x = 2%Z) /\
  reals v [10; 10; 10; 10; 10]%Z /\ multiply_real_response h 1%Z two_cores [] v = Done v' /\ reals v' [20; 20; 10; 10; 20]%Z.
Proof.
  exists (Response true (fun _ => 2%Z)), (ex_vec NReal DFreq [10; 10; 10; 10; 10]%Z). eexists. split_and!; try (vm_compute; done).
Qed.
Print Assumptions C46_untouched_refuted.
(** ... and one point can not be multiplied with a symmetric response. *)
Theorem C46_short_refuted : exists (h : response Z Z) (v : dvec Z), r_symmetric h = true /\ (forall x, r_calc h x = 2%Z) /\
  reals v [10]%Z /\ multiply_real_response h 1%Z one_core [] v = Panicked.
Proof.
  exists (Response true (fun _ => 2%Z)), (ex_vec NReal DFreq [10]%Z). split_and!; try (vm_compute; done).
Qed.
Print Assumptions C46_short_refuted.
