(** C75: the windowed transform of a real signal of odd length *)
From Verif Require Import Props_Fft Proof_Window Proof_SfftR Proof_FftR Proof_WindowedSfft Proof_WindowR Proof_Builtin.
From Verif Require Import Spec_Window Spec_Fft.
From stdpp Require Import list list_numbers tactics.
Local Open Scope R_scope.
Local Notation C := (R * R)%type.

(** What the documentation promises: the non redundant half of the spectrum of the windowed signal *)
Definition windowed_half (w : window R) (l : list R) (c : list C) : Prop :=
  exists lw, windowed Rmult (w_fun w) l lw /\ c = take ((length l + 1) / 2) (dft (-1) (map (fun x => (x, 0)) lw)).

(** What the code computes: sample [i] of [n] samples is multiplied with point [2 * i] of the window with [2 * n] points. *)
Theorem C75_windowed_sfft : forall `{F : Fft R}, computes_dft -> forall w s sched b (v : dvec R) l,
  reals v l -> number_space v = NReal -> domain v = DTime -> Nat.odd (length l) = true ->
  (w_symmetric w = true -> mirrored (w_fun w) (2 * length l) /\ pairs_up s (2 * length l)) ->
  lends b v (4 * length l) -> spare b (2 * fft_inplace_scratch_len (2 * length l)) ->
  exists v' b' lw, windowed_sfft w s sched b v = Done (v', b', Ok tt) /\
    windowed Rmult (fun i n => w_fun w (2 * i)%nat (2 * n)%nat) l lw /\
    cplx v' (take ((length l + 1) / 2) (dft (-1) (map (fun x => (x, 0)) lw))) /\
    number_space v' = NComplex /\ domain v' = DFreq /\ still_spare b b'.
Proof. exact @windowed_sfft_static. Qed.
Print Assumptions C75_windowed_sfft.

(** This is what is promised if both agree, e.g. for the rectangular window ... *)
Theorem C75_windowed_sfft_agrees : forall `{F : Fft R}, computes_dft -> forall w s sched b (v : dvec R) l,
  reals v l -> number_space v = NReal -> domain v = DTime -> Nat.odd (length l) = true ->
  (w_symmetric w = true -> mirrored (w_fun w) (2 * length l) /\ pairs_up s (2 * length l)) ->
  lends b v (4 * length l) -> spare b (2 * fft_inplace_scratch_len (2 * length l)) ->
  (forall i, (i < length l)%nat -> w_fun w (2 * i)%nat (2 * length l)%nat = w_fun w i (length l)) ->
  exists v' b' c, windowed_sfft w s sched b v = Done (v', b', Ok tt) /\ cplx v' c /\ windowed_half w l c.
Proof.
  intros F HF w s sched b v l Hv Hns Hdm Ho Hw Hb Hb2 Hag.
  destruct (windowed_sfft_static HF w s sched b v l Hv Hns Hdm Ho Hw Hb Hb2) as (v' & b' & lw & E & [L W] & D & _).
  eexists v', b', _. split; [exact E|]. split; [exact D|]. exists lw. split; [|reflexivity].
  split; [exact L|]. intros i x Ex. rewrite (W i x Ex). by rewrite Hag by exact (lookup_lt_Some _ _ _ Ex).
Qed.
Print Assumptions C75_windowed_sfft_agrees.

(** ... but not for others: the impulse 1, 0, 0 and the triangular window give 1/6 everywhere instead of 1/3. *)
Theorem C75_windowed_sfft_refuted : forall `{F : Fft R}, computes_dft -> forall s sched b (v : dvec R),
  reals v [1; 0; 0] -> number_space v = NReal -> domain v = DTime -> pairs_up s 6 ->
  lends b v 12 -> spare b (2 * fft_inplace_scratch_len 6) ->
  (exists v' b', windowed_sfft triangular_window s sched b v = Done (v', b', Ok tt) /\ cplx v' [(1 / 6, 0); (1 / 6, 0)]) /\
  (forall c, windowed_half triangular_window [1; 0; 0] c -> c = [(1 / 3, 0); (1 / 3, 0)]).
Proof.
  intros F HF s sched b v Hv Hns Hdm Hp Hb Hb2.
  assert (Hone : forall lw y, windowed Rmult (fun i n => y) [1; 0; 0] lw -> take 2 (dft (-1) (map (fun x => (x, 0)) lw)) = [(y, 0); (y, 0)]).
  { intros lw y [L W]. assert (lw = [y; 0; 0]) as ->.
    { apply list_eq. intros i. destruct i as [|[|[|i]]].
      - rewrite (W 0%nat 1 eq_refl). cbn. f_equal. lra.
      - rewrite (W 1%nat 0 eq_refl). cbn. f_equal. lra.
      - rewrite (W 2%nat 0 eq_refl). cbn. f_equal. lra.
      - rewrite !lookup_ge_None_2; [reflexivity | cbn; lia | rewrite L; cbn; lia]. }
    change (map (fun x => (x, 0)) [y; 0; 0]) with [(y, 0); (0, 0); (0, 0)].
    replace [(y, 0); (0, 0); (0, 0)] with (map (rscale y) (cpx [1; 0; 0])) by (cbn; unfold rscale; cbn; repeat f_equal; lra).
    rewrite dft_scale, dft_one. cbn. unfold rscale. cbn. repeat f_equal; lra. }
  assert (Hw : forall i n lw, windowed Rmult (fun j m => w_fun (triangular_window (A := R)) (i * j)%nat (i * m)%nat) [1; 0; 0] lw -> n = (i * 3)%nat ->
    windowed Rmult (fun _ _ => w_fun (triangular_window (A := R)) 0 n) [1; 0; 0] lw).
  { intros i n lw [L W] ->. split; [exact L|]. intros j x Ex. rewrite (W j x Ex). destruct j as [|[|[|j]]]; cbn in Ex; try discriminate Ex; injection Ex as <-.
    - by rewrite Nat.mul_0_r. - f_equal; lra. - f_equal; lra. }
  assert (H6 : w_fun (triangular_window (A := R)) 0 6 = 1 / 6).
  { rewrite triangular_value. cbn. rewrite Rabs_left; lra. }
  assert (H3 : w_fun (triangular_window (A := R)) 0 3 = 1 / 3).
  { rewrite triangular_value. cbn. rewrite Rabs_left; lra. }
  split.
  - destruct (windowed_sfft_static HF triangular_window s sched b v [1; 0; 0] Hv Hns Hdm eq_refl) as (v' & b' & lw & E & W & D & _).
    + intros _. split; [apply triangular_mirrored|exact Hp].
    + exact Hb.
    + exact Hb2.
    + exists v', b'. split; [exact E|]. apply (Hw 2%nat 6%nat) in W; [|reflexivity]. apply (Hone lw _) in W. rewrite H6 in W.
      cbn [length] in D. change ((3 + 1) / 2)%nat with 2%nat in D. rewrite W in D. exact D.
  - intros c (lw & W & ->). cbn [length]. change ((3 + 1) / 2)%nat with 2%nat. rewrite <- H3. apply Hone. apply (Hw 1%nat 3%nat); [|reflexivity].
    destruct W as [L W]. split; [exact L|]. intros j x Ex. rewrite (W j x Ex). by rewrite !Nat.mul_1_l.
Qed.
Print Assumptions C75_windowed_sfft_refuted.

(** Vectors which keep the meta data at run time get the right window, but lose the wrong part: [n mod 4 = 1] samples are a panic, [n mod 4 = 3] samples
    give a quarter of the rotated spectrum (as [sfft] does, C33). *)
Theorem C75_windowed_sfft_runtime_refuted : forall `{F : Fft R}, computes_dft -> forall w s sched b (v : dvec R) l,
  reals v l -> runtime v -> vdomain v = Time -> Nat.odd (length l) = true ->
  (w_symmetric w = true -> mirrored (w_fun w) (length l) /\ pairs_up s (length l)) ->
  lends b v (2 * length l) -> spare b (2 * fft_inplace_scratch_len (length l)) ->
  ((length l mod 4 = 1)%nat -> windowed_sfft w s sched b v = Panicked) /\
  ((length l mod 4 = 3)%nat -> exists v' b' lw X, windowed_sfft w s sched b v = Done (v', b', Ok tt) /\ windowed Rmult (w_fun w) l lw /\
     rotated_by (length l / 2) (dft (-1) (map (fun x => (x, 0)) lw)) X /\ cplx v' (take ((length l + 1) / 4) X)).
Proof. exact @windowed_sfft_gen. Qed.
Print Assumptions C75_windowed_sfft_runtime_refuted.
(** The way back: the real points which [sifft] gives are divided by the window. *)
Theorem C75_windowed_sifft : forall `{F : Fft R} w r addr s sched sched' sched'' b b1 (v v1 : dvec R) l,
  sifft r addr s sched sched' b v = Done (v1, b1, Ok tt) -> reals v1 l -> l <> [] ->
  (w_symmetric w = true -> mirrored (w_fun w) (length l) /\ pairs_up s (length l)) ->
  exists v2 l', windowed_sifft w r addr s sched sched' sched'' b v = Done (v2, b1, Ok tt) /\ reals v2 l' /\
    windowed Rmult (fun i n => 1 / w_fun w i n) l l' /\ same_meta v1 v2.
Proof.
  intros F w r addr s sched sched' sched'' b b1 v v1 l E Hv Hne Hw. unfold windowed_sifft. rewrite E, bind_Done.
  assert (Hp : points v1 = length l) by exact (points_reals v1 l Hv).
  destruct (unapply_window_spec w s sched'' v1) as [Hy _]; [rewrite Hp; exact Hw | intros _; left; rewrite Hp; destruct l; [done|cbn; lia]|].
  destruct (Hy l Hv) as (v2 & l' & E2 & Hv2 & W & M & _). rewrite E2, bind_Done. exists v2, l'. split; [reflexivity|]. split; [exact Hv2|]. split; [exact W|exact M].
Qed.
Print Assumptions C75_windowed_sifft.

Example C75_example : exists v' b' c, windowed_sfft (F := exact_fft) rectangular_window one_core [] (SingleBuffer []) (ex_vec NReal DTime [1; 2; 3]) = Done (v', b', Ok tt) /\
  cplx v' c /\ windowed_half rectangular_window [1; 2; 3] c.
Proof.
  apply (C75_windowed_sfft_agrees (F := exact_fft) exact_fft_computes); try done.
  intros _. split; [intros i _; reflexivity|]. left. split; [reflexivity|cbn; lia].
Qed.
Example C75_example_refuted : exists v' b', windowed_sfft (F := exact_fft) triangular_window one_core [] (SingleBuffer []) (ex_vec NReal DTime [1; 0; 0]) = Done (v', b', Ok tt) /\
  cplx v' [(1 / 6, 0); (1 / 6, 0)].
Proof.
  apply (C75_windowed_sfft_refuted (F := exact_fft) exact_fft_computes); try done. left. split; [reflexivity|lia].
Qed.
(** Three samples at run time: one point is left, the sum of the windowed samples or another one, depending on the rotation *)
Example C75_example_runtime : let v := DVec (Storage KVec 3 [1; 2; 3]) 1 (DDyn Time) (NDyn false) 3 in
  exists v' b' lw X, windowed_sfft (F := exact_fft) triangular_window one_core [] (SingleBuffer []) v = Done (v', b', Ok tt) /\
    windowed Rmult (w_fun triangular_window) [1; 2; 3] lw /\ rotated_by (3 / 2) (dft (-1) (map (fun x => (x, 0)) lw)) X /\ cplx v' (take 1 X).
Proof.
  intros v.
  destruct (C75_windowed_sfft_runtime_refuted (F := exact_fft) exact_fft_computes triangular_window one_core [] (SingleBuffer []) v [1; 2; 3]) as [_ K]; try done.
  - by exists false, Time.
  - intros _. split; [apply triangular_mirrored|]. left. split; [reflexivity|cbn; lia].
  - exact (K eq_refl).
Qed.
Definition twice : window R := Window false (fun _ _ => 2).
Example C75_example_sifft : exists v1 b1 v3 b3 l', sfft (F := exact_fft) (SingleBuffer []) (ex_vec NReal DTime [1; 0; 0]) = Done (v1, b1, Ok tt) /\
  windowed_sifft (F := exact_fft) twice f64x2 48 one_core [] [] [] (SingleBuffer []) v1 = Done (v3, b3, Ok tt) /\ reals v3 l' /\ l' !! 0%nat = Some (3 / 4).
Proof.
  destruct C49_example_wrong as (v1 & b1 & v2 & b2 & l & E1 & E2 & Hl & H0).
  destruct (C75_windowed_sifft (F := exact_fft) twice f64x2 48 one_core [] [] [] (SingleBuffer []) b2 v1 v2 l E2 Hl) as (v3 & l' & E3 & Hl' & [_ W] & _);
    [intros ->; discriminate H0 | intros K; discriminate K |].
  exists v1, b1, v3, b2, l'. split; [exact E1|]. split; [exact E3|]. split; [exact Hl'|]. rewrite (W 0%nat _ H0). cbn. f_equal. lra.
Qed.
