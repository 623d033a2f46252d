(** The table of Spec_Named.v holds. *)
From Verif Require Import Props_Par Props_Reorg Props_Stats Props_Complex Props_Math Props_Interp Props_Window Props_Approx Proof_Real Proof_Window Proof_ElemOps.
From Verif Require Import Spec_Named.
From Verif Require Import Model_MatOps.
From stdpp Require Import tactics.
Local Open Scope R_scope.
Local Notation C := (R * R)%type.

Lemma hypot_sqrt : forall a b : R, fhypot a b = fsqrt (a * a + b * b)%num.
Proof. intros a b. cbn [fhypot fsqrt Rflt nmul nadd Rnum]. reflexivity. Qed.
Lemma R_mul_1 : forall x : R, (x * n1)%num = x.
Proof. intros x. cbn [nmul n1 Rnum]. lra. Qed.
Lemma R_mul_m1 : forall x : R, (x * nopp n1)%num = nopp x.
Proof. intros x. cbn [nmul nopp n1 Rnum]. lra. Qed.
Lemma sqrt_square_abs : forall x : R, fsqrt (x * x)%num = fabs x.
Proof. intros x. cbn [fsqrt Rflt nmul Rnum fabs Rrem]. exact (sqrt_Rsqr_abs x). Qed.

Lemma cyclic_zip {P Q S} (g : P -> Q -> S) l lo : length l = length lo -> combined_cyclic g l lo (zip_with g l lo).
Proof.
  intros E. split; [rewrite zip_with_length; lia|]. intros i x y Hx Hy. rewrite lookup_zip_with, Hx. cbn.
  rewrite Nat.mod_small in Hy by (rewrite <- E; exact (lookup_lt_Some _ _ _ Hx)). by rewrite Hy.
Qed.

Lemma folded_steps_list d : forall l x, folded_steps d (x :: l) (x :: unwrap_list d x l).
Proof.
  assert (Hul : forall l y, length (unwrap_list d y l) = length l) by (intros l0; induction l0; intros; simpl; congruence).
  intros l x. split; [cbn; by rewrite Hul|]. split; [reflexivity|].
  intros i. revert x l. induction i as [|i IH]; intros x l a y Ha Hy.
  - destruct l as [|b l]; [discriminate|]. cbn in Ha, Hy. injection Ha as ->. injection Hy as <-. cbn [unwrap_list plus lookup list_lookup]. f_equal.
    unfold unwrap1. cbv zeta. cbn [nsub nltb ndiv nofnat nadd nopp Rnum frem Rrem]. change (INR 2) with (1 + 1).
    unfold turns. replace (1 + 1) with 2 by lra.
    destruct (Rlt_dec (d / 2) (a - x)) as [h|h].
    + replace (Rltb (d / 2) (a - x)) with true by (symmetry; by apply Rltb_true). reflexivity.
    + replace (Rltb (d / 2) (a - x)) with false by (symmetry; apply Rltb_false; lra).
      destruct (Rlt_dec (a - x) (- (d / 2))) as [h2|h2].
      * replace (Rltb (a - x) (- (d / 2))) with true by (symmetry; by apply Rltb_true). reflexivity.
      * replace (Rltb (a - x) (- (d / 2))) with false by (symmetry; apply Rltb_false; lra). reflexivity.
  - destruct l as [|b l]; [discriminate|]. cbn [unwrap_list] in Hy |- *. cbn [plus lookup list_lookup] in Ha, Hy |- *. 
    destruct l as [|b2 l]; [destruct i; discriminate|].
    destruct i as [|i].
    + exact (IH (unwrap1 d x b) (b2 :: l) a y Ha Hy).
    + exact (IH (unwrap1 d x b) (b2 :: l) a y Ha Hy).
Qed.

Ltac fin := eexists _, _; split; [eassumption|]; split; [eassumption|]; split; [first [eassumption | reflexivity] | first [eassumption]].
Section named.
Context `{Math R}.

Lemma wrap_values s sched d (v : dvec R) l : reals v l ->
  exists v', wrap s sched d v = Done v' /\ reals v' (map (fun x => x - d * IZR (turns d x)) l) /\ same_meta v v'.
Proof.
  intros Hv. pose proof Hv as [Hc Hvd]. unfold wrap. rewrite Hc.
  destruct (pure_real_operation_spec s sched (fun x => frem x d) Small v l Hvd) as (v1 & E1 & D1 & M1 & R1); [right; apply small_nothing|].
  exists v1. split; [exact E1|]. split; [|exact M1]. split; [by rewrite (meta_is_complex v v1 M1) | exact D1].
Qed.
Theorem inplace_reals e op i (v : dvec R) l : row_ready e i v -> for_reals op -> callable e op v -> reals v l ->
  exists v' l', vec_inplace e op i v = Done v' /\ reals v' l' /\ makes_of_reals op l l' /\ keeps_meta op v v'.
Proof.
  intros (Hr & He & Ha & Hl & Hw) Hf Hc Hv.
  assert (Hlen : length l <> 0%nat) by (rewrite <- (reals_len v l (proj2 Hv)); exact Hl).
  assert (Hne : l <> []) by (intros ->; exact (Hlen eq_refl)).
  assert (Hp : points v = length l) by exact (points_reals v l Hv).
  assert (Hcore : forall co, no_threads_for_nothing co (e_set e) \/ len v <> 0%nat) by (intros; by right).
  assert (Ha2 : half_aligned (e_reg e) (e_addr e i) \/ (len v < (e_addr e i mod reg_bytes (e_reg e)) / elem_size (e_reg e) + reg_len (e_reg e))%nat).
  { destruct Ha as [[h _]|h]; [left; exact h | right; exact h]. }
  destruct op; cbn [vec_inplace makes_of_reals for_reals callable keeps_meta] in *; try (exfalso; exact Hf).
  - destruct (proj1 (C13_scale_real _ _ (e_set e) (e_sched e i 0) x v Hr He Ha2) l Hv) as (v' & E & D & M & _). fin.
  - destruct (proj1 (C13_offset_real _ _ (e_set e) (e_sched e i 0) x v Hr He Ha) l Hv) as (v' & E & D & M & _). fin.
  - destruct (C09_reverse_real v l Hv) as (v' & E & D & M & _). fin.
  - destruct (C10_swap_halves_real v l Hv) as (v' & l' & E & _ & D & P & M & _). fin.
  - destruct (proj1 (C12_diff v) l Hv Hne) as (v' & l' & E & D & M & P). fin.
  - destruct (proj1 (C12_diff_with_start v) l Hv) as (v' & l' & E & D & M & _ & P). fin.
  - destruct (proj1 (C12_cum_sum R_exact v) l Hv) as (v' & l' & E & D & M & _ & P). fin.
  - destruct (proj1 (C47_named f (e_set e) (e_sched e i 0) v (Hcore _)) l Hv) as (v' & E & D & M & _). fin.
  - destruct (proj1 (C47_sqrt _ _ (e_set e) (e_sched e i 0) v Hr He Ha) l Hv) as (v' & E & D & M & _). fin.
  - destruct (proj1 (C47_square _ _ (e_set e) (e_sched e i 0) v Hr He Ha) l Hv) as (v' & E & D & M & _). fin.
  - destruct (proj1 (C47_root d (e_set e) (e_sched e i 0) v (Hcore _)) l Hv) as (v' & E & D & M & _). fin.
  - destruct (proj1 (C47_powf e0 (e_set e) (e_sched e i 0) v (Hcore _)) l Hv) as (v' & E & D & M & _). fin.
  - destruct (proj1 (C47_log b (e_set e) (e_sched e i 0) v (Hcore _)) l Hv) as (v' & E & D & M & _). fin.
  - destruct (proj1 (C47_expf b (e_set e) (e_sched e i 0) v (Hcore _)) l Hv) as (v' & E & D & M & _). fin.
  - destruct (C22_map_inplace f (e_set e) (e_sched e i 0) v l Hv) as (v' & E & D & M & _). fin.
  - destruct (proj1 (C47_abs sqrt_square_abs _ _ (e_set e) (e_sched e i 0) v Hr He Ha) l Hv) as (v' & E & D & M & _). fin.
  - destruct (wrap_values (e_set e) (e_sched e i 0) d v l Hv) as (v' & E & D & M). fin.
  - destruct (unwrap_spec d v l Hv) as (v' & E & D & M & _). destruct l as [|x0 l0]; [done|].
    exists v', (x0 :: unwrap_list d x0 l0). split; [exact E|]. split; [exact D|]. split; [apply folded_steps_list | exact M].
  - destruct (proj1 (C61_values f _ _ (e_set e) (e_sched e i 0) v Hr He Ha) l Hv) as (v' & E & D & M & _). fin.
  - destruct (C10_swap_halves_real v l Hv) as (v' & l' & _ & E & D & P & M & _). fin.
  - rewrite Hp in Hc. destruct (C10_ifft_shift_real v l Hv Hc) as (v' & l' & E & D & P & M & _). fin.
  - destruct (apply_window_spec w (e_set e) (e_sched e i 0) v Hc) as [Hx _]; [intros _; left; lia|].
    destruct (Hx l Hv) as (v' & l' & E & D & P & M & _). fin.
  - destruct (unapply_window_spec w (e_set e) (e_sched e i 0) v Hc) as [Hx _]; [intros _; left; lia|].
    destruct (Hx l Hv) as (v' & l' & E & D & P & M & _). fin.
  - destruct Hc as [Hd Hs]. destruct (C46_real_response h ratio (e_set e) (e_sched e i 0) v Hd Hs) as [Hx _]; [intros _; left; lia|].
    destruct (Hx l Hv) as (v' & l' & E & D & P & M & _). fin.
  - destruct (C36_decimatei_real v l factor delay Hv Hc) as (v' & l' & E & D & P & M & _). fin.
  - exists (set_delta v d), l. split; [reflexivity|]. split; [exact Hv|]. split; [reflexivity|]. split; [reflexivity|]. split; reflexivity.
Qed.

Theorem inplace_complex e op i (v : dvec R) c : row_ready e i v -> for_complex op -> callable e op v -> cplx v c ->
  exists v' c', vec_inplace e op i v = Done v' /\ cplx v' c' /\ makes_of_complex op (delta v) c c' /\ keeps_meta op v v'.
Proof.
  intros (Hr & He & Ha & Hl & Hw) Hf Hc Hv.
  assert (Hlen : length c <> 0%nat).
  { intros E. apply Hl. rewrite (reals_len v _ (proj2 Hv)), (complex_to_array_length c), E. reflexivity. }
  assert (Hne : c <> []) by (intros ->; exact (Hlen eq_refl)).
  assert (Hp : points v = length c) by exact (points_cplx v c Hv).
  assert (Hcore : forall co, no_threads_for_nothing co (e_set e) \/ len v <> 0%nat) by (intros; by right).
  assert (Ha2 : half_aligned (e_reg e) (e_addr e i) \/ (len v < (e_addr e i mod reg_bytes (e_reg e)) / elem_size (e_reg e) + reg_len (e_reg e))%nat).
  { destruct Ha as [[h _]|h]; [left; exact h | right; exact h]. }
  destruct op; cbn [vec_inplace makes_of_complex for_complex callable keeps_meta] in *; try (exfalso; exact Hf).
  - destruct (proj2 (C13_scale_real _ _ (e_set e) (e_sched e i 0) x v Hr He Ha2) c Hv) as (v' & E & D & M & _). fin.
  - destruct (proj2 (C13_offset_real _ _ (e_set e) (e_sched e i 0) x v Hr He Ha) c Hv) as (v' & E & D & M & _).
    assert (Em : map (fun z : C => (fst z + x, snd z + n0)%num) c = map (fun z : C => (fst z + x, snd z)) c).
    { apply map_ext. intros z. cbn [nadd n0 Rnum]. f_equal. apply Rplus_0_r. }
    rewrite Em in D. fin.
  - destruct (C13_scale_complex _ _ (e_set e) (e_sched e i 0) x v c Hr He Ha Hv) as (v' & E & D & M & _). fin.
  - destruct (C13_offset_complex _ _ (e_set e) (e_sched e i 0) x v c Hr He Ha Hv) as (v' & E & D & M & _). fin.
  - destruct (C09_reverse_complex v c Hv) as (v' & E & D & M & _). fin.
  - destruct (C10_swap_halves_complex v c Hv) as (v' & l' & E & _ & D & P & M & _). fin.
  - destruct (proj2 (C12_diff v) c Hv Hne Hw) as (v' & l' & E & D & M & P). fin.
  - destruct (proj2 (C12_diff_with_start v) c Hv Hw) as (v' & l' & E & D & M & _ & P). fin.
  - destruct (proj2 (C12_cum_sum R_exact v) c Hv) as (v' & l' & E & D & M & _ & P). fin.
  - destruct (proj2 (C47_named f (e_set e) (e_sched e i 0) v (Hcore _)) c Hv) as (v' & E & D & M & _). fin.
  - destruct (proj2 (C47_sqrt _ _ (e_set e) (e_sched e i 0) v Hr He Ha) c Hv) as (v' & E & D & M & _). fin.
  - destruct (proj2 (C47_square _ _ (e_set e) (e_sched e i 0) v Hr He Ha) c Hv) as (v' & E & D & M & _).
    assert (Em : map (fun '(x, y) => (x * x - y * y, x * y + y * x)%num) c = map (fun z : C => complex_product z z) c).
    { apply map_ext. intros [x y]. reflexivity. }
    rewrite Em in D. fin.
  - destruct (proj2 (C47_root d (e_set e) (e_sched e i 0) v (Hcore _)) c Hv) as (v' & E & D & M & _). fin.
  - destruct (proj2 (C47_powf e0 (e_set e) (e_sched e i 0) v (Hcore _)) c Hv) as (v' & E & D & M & _). fin.
  - destruct (proj2 (C47_log b (e_set e) (e_sched e i 0) v (Hcore _)) c Hv) as (v' & E & D & M & _). fin.
  - destruct (proj2 (C47_expf b (e_set e) (e_sched e i 0) v (Hcore _)) c Hv) as (v' & E & D & M & _). fin.
  - destruct (C22_map_inplace_complex f (e_set e) (e_sched e i 0) v c Hv Hw) as (v' & E & D & M & _). fin.
  - destruct (C48_exponential_exact (e_set e) (e_sched e i 0) a b v c Hv) as (v' & E & M & D).
    assert (Em : imap (fun j '(x, y) => let phi := ((a * INR j + b) * delta v)%R in (x * cos phi - y * sin phi, x * sin phi + y * cos phi)%R) c =
      imap (fun j (z : C) => let phi := (a * INR j + b) * delta v in (fst z * cos phi - snd z * sin phi, fst z * sin phi + snd z * cos phi)) c).
    { apply imap_ext. intros j [x y] _. reflexivity. }
    rewrite Em in D. fin.
  - destruct (proj1 (C48_conj R_mul_1 R_mul_m1 _ _ (e_set e) (e_sched e i 0) v Hr He) c Hv Ha) as (v' & E & D & M & _).
    assert (Em : map (fun '(x, y) => (x, nopp y)) c = map (fun z : C => (fst z, - snd z)) c).
    { apply map_ext. intros [x y]. reflexivity. }
    rewrite Em in D. fin.
  - destruct (C10_swap_halves_complex v c Hv) as (v' & l' & _ & E & D & P & M & _). fin.
  - rewrite Hp in Hc. destruct (C10_ifft_shift_complex v c Hv Hc) as (v' & l' & E & D & P & M & _). fin.
  - destruct (apply_window_spec w (e_set e) (e_sched e i 0) v Hc) as [_ Hx]; [intros _; left; lia|].
    destruct (Hx c Hv) as (v' & l' & E & D & P & M & _). fin.
  - destruct (unapply_window_spec w (e_set e) (e_sched e i 0) v Hc) as [_ Hx]; [intros _; left; lia|].
    destruct (Hx c Hv) as (v' & l' & E & D & P & M & _). fin.
  - destruct Hc as [Hd Hs]. destruct (C46_real_response h ratio (e_set e) (e_sched e i 0) v Hd Hs) as [_ Hx]; [intros _; left; lia|].
    destruct (Hx c Hv) as (v' & l' & E & D & P & M & _). fin.
  - destruct Hc as [Hd Hs]. rewrite Hp in Hs. destruct (C46_complex_response h ratio (e_set e) (e_sched e i 0) v c Hd Hv Hs) as (v' & l' & E & D & P & M & _); [intros _; left; lia|].
    fin.
  - destruct (C36_decimatei_complex v c factor delay Hv Hc) as (v' & l' & E & D & P & M & _). fin.
  - exists (set_delta v d), c. split; [reflexivity|]. split; [exact Hv|]. split; [reflexivity|]. split; [reflexivity|]. split; reflexivity.
Qed.

(** *** Binary operations *)
Theorem binary_reals e op i (v o : dvec R) l lo : row_ready e i v -> reals v l -> reals o lo -> meta_agree v o -> fits_length op (len v) (len o) ->
  exists v' l', vec_binary e op i v o = Done (v', Ok tt) /\ reals v' l' /\ same_meta v v' /\ combined_cyclic (real_operation op) l lo l'.
Proof.
  intros (Hr & He & Ha & Hl & Hw) Hv Ho Hm Hf.
  assert (Hz : forall g : R -> R -> R, len v = len o -> combined_cyclic g l lo (zip_with g l lo)).
  { intros g E. rewrite (reals_len _ _ (proj2 Hv)), (reals_len _ _ (proj2 Ho)) in E. apply cyclic_zip. exact E. }
  unfold fits_length in Hf. destruct op; cbn [repeats real_operation vec_binary] in *.
  - destruct (C13_add (A := R) (e_reg e) (e_addr e i) (e_set e) (e_sched e i 0) v o Hr He) as (_ & _ & Hx).
    destruct (proj1 (Hx Hf Hm Ha I) l lo Hv Ho) as (v' & E & D & M & _). exists v', (zip_with Rplus l lo). split_and!; [exact E|exact D|exact M|..]; apply Hz; exact Hf.
  - destruct (C13_sub (A := R) (e_reg e) (e_addr e i) (e_set e) (e_sched e i 0) v o Hr He) as (_ & _ & Hx).
    destruct (proj1 (Hx Hf Hm Ha I) l lo Hv Ho) as (v' & E & D & M & _). exists v', (zip_with Rminus l lo). split_and!; [exact E|exact D|exact M|..]; apply Hz; exact Hf.
  - destruct (C13_div (A := R) (e_reg e) (e_addr e i) (e_set e) (e_sched e i 0) v o Hr He) as (_ & _ & Hx).
    destruct (proj1 (Hx Hf Hm Ha Hw) l lo Hv Ho) as (v' & E & D & M & _). exists v', (zip_with Rdiv l lo). split_and!; [exact E|exact D|exact M|..]; apply Hz; exact Hf.
  - destruct (C13_mul (A := R) (e_reg e) (e_addr e i) (e_set e) (e_sched e i 0) v o Hr He) as (_ & _ & Hx).
    destruct (proj1 (Hx Hf Hm Ha Hw) l lo Hv Ho) as (v' & E & D & M & _). exists v', (zip_with Rmult l lo). split_and!; [exact E|exact D|exact M|..]; apply Hz; exact Hf.
  - destruct Hf as [Hf1 Hf2]. destruct (C14_add_smaller (A := R) (e_reg e) (e_set e) (e_sched e i 0) v o) as (_ & _ & _ & Hx).
    destruct (proj1 (Hx Hf1 Hf2 Hm) l lo Hv Ho) as (v' & l' & E & D & P & M & _). exists v', l'. split_and!; assumption.
  - destruct Hf as [Hf1 Hf2]. destruct (C14_sub_smaller (A := R) (e_reg e) (e_set e) (e_sched e i 0) v o) as (_ & _ & _ & Hx).
    destruct (proj1 (Hx Hf1 Hf2 Hm) l lo Hv Ho) as (v' & l' & E & D & P & M & _). exists v', l'. split_and!; assumption.
  - destruct Hf as [Hf1 Hf2]. destruct (C14_div_smaller (A := R) (e_reg e) (e_set e) (e_sched e i 0) v o) as (_ & _ & _ & Hx).
    destruct (proj1 (Hx Hf1 Hf2 Hm) l lo Hv Ho) as (v' & l' & E & D & P & M & _). exists v', l'. split_and!; assumption.
  - destruct Hf as [Hf1 Hf2]. destruct (C14_mul_smaller (A := R) (e_reg e) (e_set e) (e_sched e i 0) v o) as (_ & _ & _ & Hx).
    destruct (proj1 (Hx Hf1 Hf2 Hm) l lo Hv Ho) as (v' & l' & E & D & P & M & _). exists v', l'. split_and!; assumption.
Qed.
Theorem binary_complex e op i (v o : dvec R) c co : row_ready e i v -> cplx v c -> cplx o co -> meta_agree v o -> fits_length op (len v) (len o) ->
  exists v' c', vec_binary e op i v o = Done (v', Ok tt) /\ cplx v' c' /\ same_meta v v' /\ combined_cyclic (complex_operation op) c co c'.
Proof.
  intros (Hr & He & Ha & Hl & Hw) Hv Ho Hm Hf.
  assert (Hz : forall g : C -> C -> C, len v = len o -> combined_cyclic g c co (zip_with g c co)).
  { intros g E. rewrite (reals_len _ _ (proj2 Hv)), (reals_len _ _ (proj2 Ho)), (complex_to_array_length c), (complex_to_array_length co) in E. apply cyclic_zip. lia. }
  unfold fits_length in Hf. destruct op; cbn [repeats complex_operation vec_binary] in *.
  - destruct (C13_add (A := R) (e_reg e) (e_addr e i) (e_set e) (e_sched e i 0) v o Hr He) as (_ & _ & Hx).
    destruct (proj2 (Hx Hf Hm Ha I) c co Hv Ho) as (v' & E & D & M & _). eexists v', _. split_and!; [exact E|exact D|exact M|..]; apply Hz; exact Hf.
  - destruct (C13_sub (A := R) (e_reg e) (e_addr e i) (e_set e) (e_sched e i 0) v o Hr He) as (_ & _ & Hx).
    destruct (proj2 (Hx Hf Hm Ha I) c co Hv Ho) as (v' & E & D & M & _). eexists v', _. split_and!; [exact E|exact D|exact M|..]; apply Hz; exact Hf.
  - destruct (C13_div (A := R) (e_reg e) (e_addr e i) (e_set e) (e_sched e i 0) v o Hr He) as (_ & _ & Hx).
    destruct (proj2 (Hx Hf Hm Ha Hw) c co Hv Ho) as (v' & E & D & M & _). eexists v', _. split_and!; [exact E|exact D|exact M|..]; apply Hz; exact Hf.
  - destruct (C13_mul (A := R) (e_reg e) (e_addr e i) (e_set e) (e_sched e i 0) v o Hr He) as (_ & _ & Hx).
    destruct (proj2 (Hx Hf Hm Ha Hw) c co Hv Ho) as (v' & E & D & M & _). eexists v', _. split_and!; [exact E|exact D|exact M|..]; apply Hz; exact Hf.
  - destruct Hf as [Hf1 Hf2]. destruct (C14_add_smaller (A := R) (e_reg e) (e_set e) (e_sched e i 0) v o) as (_ & _ & _ & Hx).
    destruct (proj2 (Hx Hf1 Hf2 Hm) c co Hv Ho) as (v' & l' & E & D & P & M & _). exists v', l'. split_and!; assumption.
  - destruct Hf as [Hf1 Hf2]. destruct (C14_sub_smaller (A := R) (e_reg e) (e_set e) (e_sched e i 0) v o) as (_ & _ & _ & Hx).
    destruct (proj2 (Hx Hf1 Hf2 Hm) c co Hv Ho) as (v' & l' & E & D & P & M & _). exists v', l'. split_and!; assumption.
  - destruct Hf as [Hf1 Hf2]. destruct (C14_div_smaller (A := R) (e_reg e) (e_set e) (e_sched e i 0) v o) as (_ & _ & _ & Hx).
    destruct (proj2 (Hx Hf1 Hf2 Hm) c co Hv Ho) as (v' & l' & E & D & P & M & _). exists v', l'. split_and!; assumption.
  - destruct Hf as [Hf1 Hf2]. destruct (C14_mul_smaller (A := R) (e_reg e) (e_set e) (e_sched e i 0) v o) as (_ & _ & _ & Hx).
    destruct (proj2 (Hx Hf1 Hf2 Hm) c co Hv Ho) as (v' & l' & E & D & P & M & _). exists v', l'. split_and!; assumption.
Qed.

(** *** Conversions *)
Theorem conversion_numbers op (v : dvec R) c : to_numbers op -> typed v -> cplx v c ->
  exists v', vec_conversion op v = Done v' /\ reals v' (map (converts op) c) /\ converted v v'.
Proof.
  intros Hn Ht Hv.
  assert (Hb : lends NoBuffer v (length c)) by exact I.
  pose proof (C24_transforms one_core [] NoBuffer v c Hv Ht Hb) as Hx.
  assert (Hm : exists r addr, reg_ok r /\ elem_aligned r addr /\ address_ok r addr v).
  { exists f64x2, 0%nat. split; [split; [apply Nat.lt_0_succ|split; [apply Nat.lt_0_succ|reflexivity]]|]. split; [reflexivity|]. left. split; [reflexivity|]. intros _. reflexivity. }
  destruct Hm as (r & addr & Hr & He & Ha).
  pose proof (C24_magnitude hypot_sqrt r addr one_core [] NoBuffer v c Hr He Hv Ht Ha Hb) as (M1 & _ & M2 & _).
  destruct op; cbn [vec_conversion converts to_numbers] in *; try (exfalso; exact Hn).
  - destruct M1 as (v' & E & D & K & _). exists v'. split; [exact E|]. split; [exact D | exact K].
  - destruct M2 as (v' & E & D & K & _). exists v'. split; [exact E|]. split; [exact D | exact K].
  - destruct (Hx to_real (to_real_b one_core []) fst) as ((v' & E & D & K & _) & _); [constructor|]. exists v'. split; [exact E|]. split; [exact D | exact K].
  - destruct (Hx to_imag (to_imag_b one_core []) snd) as ((v' & E & D & K & _) & _); [constructor; constructor|]. exists v'. split; [exact E|]. split; [exact D | exact K].
  - destruct (Hx phase (phase_b one_core []) (fun x : C => fatan2 (snd x) (fst x))) as ((v' & E & D & K & _) & _); [constructor; constructor; constructor|].
    exists v'. split; [exact E|]. split; [exact D | exact K].
Qed.
Theorem buffered_numbers `{F : Fft R} e op k i b (v : dvec R) c : unbuffered op = Some k -> row_ready e i v -> typed v -> lends b v (length c) -> cplx v c ->
  exists v' b', vec_buffered e op i b v = Done (v', b') /\ reals v' (map (converts k) c) /\ converted v v'.
Proof.
  intros Hn (Hr & He & Ha & _) Ht Hb Hv.
  pose proof (C24_transforms (e_set e) (e_sched e i 0) b v c Hv Ht Hb) as Hx.
  pose proof (C24_magnitude hypot_sqrt (e_reg e) (e_addr e i) (e_set e) (e_sched e i 0) b v c Hr He Hv Ht Ha Hb) as (_ & M1 & _ & M2).
  destruct op; cbn [vec_buffered unbuffered] in *; try discriminate Hn; injection Hn as <-; cbn [converts].
  - exact M1.
  - exact M2.
  - destruct (Hx to_real (to_real_b (e_set e) (e_sched e i 0)) fst) as (_ & K); [constructor|]. exact K.
  - destruct (Hx to_imag (to_imag_b (e_set e) (e_sched e i 0)) snd) as (_ & K); [constructor; constructor|]. exact K.
  - destruct (Hx phase (phase_b (e_set e) (e_sched e i 0)) (fun x : C => fatan2 (snd x) (fst x))) as (_ & K); [constructor; constructor; constructor|]. exact K.
Qed.

Theorem getter_numbers e op i (v dst : dvec R) c : row_ready e i v -> typed v -> alloc_len v = len v -> takes dst (len v) -> cplx v c ->
  exists dst', vec_getter e op i v dst = Done dst' /\ reals dst' (map (gets op) c) /\ delta dst' = delta v /\ domain dst' = domain dst /\
    number_space dst' = number_space dst.
Proof.
  intros (Hr & He & Ha & _) Ht Hal Hd Hv.
  destruct (C23_getters (e_set e) (e_sched e i 0) v dst c Hv Ht Hd) as ((d1 & _ & E1 & G1 & _) & (d2 & _ & E2 & G2 & _) & (d3 & _ & E3 & G3 & _)).
  destruct (C23_get_magnitude hypot_sqrt (e_reg e) (e_addr e i) (e_set e) (e_sched e i 0) v dst c Hr He Hv Ha Hal Hd) as ((d4 & E4 & G4) & (d5 & E5 & G5)).
  destruct op; cbn [vec_getter gets converts].
  - exists d1. split; [exact E1 | exact G1].
  - exists d2. split; [exact E2 | exact G2].
  - exists d4. split; [exact E4 | exact G4].
  - exists d5. split; [exact E5 | exact G5].
  - exists d3. split; [exact E3 | exact G3].
Qed.
Theorem getter2_numbers op (v d1 d2 : dvec R) c : cplx v c -> takes d1 (length c) -> takes d2 (length c) ->
  exists d1' d2', vec_getter2 op v d1 d2 = Done (d1', d2') /\ reals d1' (map (fst (gets2 op)) c) /\ reals d2' (map (snd (gets2 op)) c) /\
    same_meta d1 d1' /\ same_meta d2 d2'.
Proof.
  intros Hv H1 H2. destruct op; cbn [vec_getter2 gets2 fst snd].
  - exact (C23_get_real_imag v d1 d2 c Hv H1 H2).
  - exact (C23_get_mag_phase v d1 d2 c Hv H1 H2).
Qed.
Theorem setter2_numbers op (v x y : dvec R) lx ly : is_complex v = true -> s_kind (data v) = KVec -> reals x lx -> reals y ly -> length lx = length ly ->
  takes x (length lx) -> takes y (length lx) ->
  exists v', vec_setter2 op v x y = Done (v', Ok tt) /\ cplx v' (zip_with (composes op) lx ly) /\ same_meta v v'.
Proof.
  intros Hc Hk Hx Hy Hl Htx Hty. destruct op; cbn [vec_setter2 composes].
  - destruct (C23_set_then_get v x y lx ly Hc Hk Hx Hy Hl Htx Hty) as (v' & _ & _ & E & D & M & _). exists v'. split; [exact E|]. split; [exact D | exact M].
  - destruct (C23_set_mag_phase v x y lx ly Hk (proj2 Hx) (proj2 Hy) Hl) as (v' & E & D & M & _). exists v'. split; [exact E|]. split; [|exact M].
    split; [by rewrite (meta_is_complex v v' M) | exact D].
Qed.

(** *** One number *)
Theorem sum_numbers e op i (v : dvec R) l : row_ready e i v -> reals v l ->
  vec_sum_op e op i v = Done (sum_of Rplus 0 (map (summand op) l)).
Proof.
  intros (Hr & He & Ha & _) Hv.
  destruct (C19_sum R_exact (e_reg e) (e_addr e i) (e_set e) (e_sched e i 0) v l Hr He Hv Ha) as [S1 S2].
  destruct op; cbn [vec_sum_op summand].
  - rewrite map_id. exact S1.
  - exact S2.
  - exact (C41_sum_prec R_exact (fun x => x) (e_set e) (e_sched e i 0) v l Hv).
  - exact (C41_sum_prec R_exact (fun x => x * x)%num (e_set e) (e_sched e i 0) v l Hv).
Qed.
Theorem dot_numbers e op i (v o : dvec R) l lo : row_ready e i v -> len v = len o -> reals v l -> reals o lo ->
  vec_dot_op e op i v o = Done (Ok (sum_of Rplus 0 (zip_with Rmult l lo))).
Proof.
  intros (Hr & He & Ha & _) Hl Hv Ho. destruct op; cbn [vec_dot_op].
  - exact (proj1 (C45_dot_product R_exact (e_reg e) (e_addr e i) (e_set e) (e_sched e i 0) v o Hr He Ha Hl) l lo Hv Ho).
  - exact (proj1 (C41_dot_prec R_exact (e_reg e) (e_addr e i) (e_set e) (e_sched e i 0) v o Hr He Ha Hl) l lo Hv Ho).
Qed.
Lemma R_neutral : zero_neutral R.
Proof. intros x. cbn. lra. Qed.
Theorem stat_numbers e op i (v : dvec R) l : reals v l -> l <> [] ->
  exists st, vec_stat_op e op i v = Done st /\ totals_of l st.
Proof.
  intros Hv Hne. destruct (C19_statistics_real (e_set e) (e_sched e i 0) v l Hv R_neutral) as [_ Hx]. destruct (Hx Hne) as (st & E & T & _).
  exists st. split; [|exact T]. destruct op; cbn [vec_stat_op]; [exact E|]. rewrite (proj1 (C41_statistics_prec R_exact (e_set e) (e_sched e i 0) v)). exact E.
Qed.
Theorem split_numbers e op i (v : dvec R) l k : reals v l -> l <> [] -> (0 < k <= 16)%nat ->
  exists sts, vec_split_op e op i v k = Done (Ok sts) /\ length sts = k /\
    forall b, (b < k)%nat -> exists lb st, is_bucket k b l lb /\ sts !! b = Some st /\ totals_of lb st.
Proof.
  intros Hv Hne Hk. destruct (C21_split_real (e_set e) (e_sched e i 0) v k l Hv R_neutral) as (_ & _ & Hx). destruct (Hx Hk Hne) as (sts & E & L & T).
  exists sts. split.
  - destruct op; cbn [vec_split_op]; [exact E|]. destruct (C41_statistics_prec R_exact (e_set e) (e_sched e i 0) v) as (_ & _ & P & _). rewrite P. exact E.
  - split; [exact L|]. intros b Hb. destruct (T b Hb) as (lb & st & B1 & B2 & B3 & _). exists lb, st. split; [exact B1|]. split; [exact B2 | exact B3].
Qed.
End named.
