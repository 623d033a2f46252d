(** What the operations leave as it is, whenever they end without a panic: lengths, number space, domain. No preconditions. *)
From Verif Require Export Proof_MatOps Model_Interop Spec.
From Verif Require Import Proof_Base Proof_Vec Proof_Chunk.

(** The only things which may have changed are the elements. *)
Definition frame {A} (v v' : dvec A) : Prop :=
  valid_len v' = valid_len v /\ alloc_len v' = alloc_len v /\ number_space v' = number_space v /\ domain v' = domain v /\ delta v' = delta v.
Lemma frame_refl {A} (v : dvec A) : frame v v. Proof. done. Qed.
Lemma frame_trans {A} (u v w : dvec A) : frame u v -> frame v w -> frame u w.
Proof. intros (?&?&?&?&?) (?&?&?&?&?). repeat split; congruence. Qed.
Lemma frame_wf {A} (v v' : dvec A) : frame v v' -> wf v -> wf v'.
Proof. intros (E1 & E2 & E3 & _) [H1 H2]. unfold wf, len, is_complex in *. rewrite E1, E2, E3. done. Qed.
Lemma frame_set {A} (v : dvec A) l : length l = length (elems v) -> frame v (set_elems v l).
Proof. intros E. repeat split. exact E. Qed.

(** Takes a computation apart. *)
Ltac binv H :=
  cbv beta zeta in H;
  match type of H with
  | mbind _ _ = Done _ =>
      let x := fresh "x" in let E := fresh "E" in apply bind_Done_inv in H as (x & E & H); binv H
  | (if ?c then _ else _) = Done _ => let E := fresh "Ec" in destruct c eqn:E; binv H
  | (let '(_, _) := ?x in _) = Done _ => let E := fresh "Ep" in destruct x eqn:E; binv H
  | match ?x with _ => _ end = Done _ => let E := fresh "Em" in destruct x eqn:E; binv H
  | Done _ = Done _ => injection H as H; subst
  | Panicked = Done _ => discriminate H
  | _ => idtac
  end.

Ltac deep := repeat match goal with
  | E : mbind _ _ = Done _ |- _ => binv E
  | E : (if _ then _ else _) = Done _ |- _ => binv E
  | E : Done _ = Done _ |- _ => injection E as E; subst
  end.

Lemma slice_len {X} (l : list X) a b r : slice l a b = Done r -> a <= b <= length l /\ length r = b - a.
Proof.
  unfold slice. destruct (a <=? b) eqn:E1; [|done]. destruct (b <=? length l) eqn:E2; [|done]. cbn [andb]. intros [= <-].
  apply Nat.leb_le in E1, E2. rewrite take_length, drop_length. lia.
Qed.
Lemma splice_len {X} (l : list X) a x r : splice l a x = Done r -> length r = length l.
Proof. unfold splice. destruct (a + length x <=? length l) eqn:E; [|done]. intros [= <-]. apply Nat.leb_le in E. rewrite !app_length, take_length, drop_length. lia. Qed.
Lemma wr_len {X} (l : list X) i x r : wr l i x = Done r -> length r = length l.
Proof. unfold wr. destruct (i <? length l); [|done]. intros [= <-]. by rewrite insert_length. Qed.
Lemma copy_into_len {X} (l : list X) a b x r : copy_into l a b x = Done r -> length r = length l.
Proof.
  unfold copy_into. destruct (a <=? b) eqn:E1; [|done]. destruct (b <=? length l) eqn:E2; [|done]. destruct (length x =? b - a) eqn:E3; [|done]. cbn [andb].
  intros [= <-]. apply Nat.leb_le in E1, E2. apply Nat.eqb_eq in E3. rewrite !app_length, take_length, drop_length. lia.
Qed.
Lemma memzero_len {X} (z : X) l a b r : memzero z l a b = Done r -> length r = length l.
Proof.
  unfold memzero, assert_. destruct (a <=? b) eqn:E1; [|done]. destruct (b <=? length l) eqn:E2; [|done]. intros E. binv E.
  apply Nat.leb_le in E1, E2. rewrite !app_length, take_length, drop_length, replicate_length. lia.
Qed.
Lemma memcpy_len {X} (l : list X) a b c r : memcpy l a b c = Done r -> length r = length l.
Proof.
  unfold memcpy, assert_. destruct (a <=? b) eqn:E1; [|done]. destruct (b <=? length l) eqn:E2; [|done].
  destruct (c <=? length l - (b - a)) eqn:E3; [|done]. intros E. binv E.
  apply Nat.leb_le in E1, E2, E3. rewrite !app_length, !take_length, !drop_length. lia.
Qed.
Lemma loop_len {X} n : forall i (f : nat -> list X -> run (list X)) l r,
  (forall i l r, f i l = Done r -> length r = length l) -> loop n i f l = Done r -> length r = length l.
Proof.
  induction n as [|n IH]; intros i f l r Hf E; cbn [loop] in E; [by injection E as <-|].
  binv E. rewrite (IH _ _ _ _ Hf E). by apply (Hf _ _ _ E0).
Qed.
Lemma loop_inv' {S} (P : S -> Prop) n : forall i (f : nat -> S -> run S) s r,
  (forall i s r, P s -> f i s = Done r -> P r) -> P s -> loop n i f s = Done r -> P r.
Proof.
  induction n as [|n IH]; intros i f s r Hf Hs E; cbn [loop] in E; [by injection E as <-|].
  binv E. apply (IH _ _ _ _ Hf (Hf _ _ _ Hs E0) E).
Qed.
Lemma while_inv' {S} (P : S -> Prop) (cond : S -> bool) (body : S -> run S) fuel : forall s r,
  (forall s r, P s -> cond s = true -> body s = Done r -> P r) -> P s -> while_ fuel cond body s = Done r -> P r.
Proof.
  induction fuel as [|n IH]; intros s r Hf Hs E; cbn [while_] in E.
  - discriminate E.
  - destruct (cond s) eqn:Ec; [|by injection E as <-]. binv E. apply (IH _ _ Hf (Hf _ _ Hs Ec E0) E).
Qed.
Lemma run_steps_len {X} (steps : list (list X -> run (list X))) : forall l r,
  (forall s, s ∈ steps -> forall l r, s l = Done r -> length r = length l) -> run_steps steps l = Done r -> length r = length l.
Proof.
  unfold run_steps. induction steps as [|s steps IH]; intros l r Hs E; cbn [foldl] in E; [by injection E as <-|].
  destruct (Done l ≫= s) as [l'|] eqn:E1.
  - cbn in E1. rewrite (IH l' r); [|intros s' Hs'; apply Hs; by right|exact E]. apply (Hs s ltac:(by left) l l' E1).
  - exfalso. clear -E. induction steps as [|s' steps IH]; [discriminate E|]. cbn [foldl] in E. exact (IH E).
Qed.
Lemma array_to_complex_len {X} (l : list X) r : array_to_complex l = Done r -> length l = 2 * length r.
Proof.
  unfold array_to_complex, assert_. destruct (Nat.even (length l)) eqn:E; [|done]. intros H. binv H. apply Nat.even_spec in E as [k E].
  rewrite pairs_of_length, E, (Nat.mul_comm 2 k), Nat.div_mul by lia. lia.
Qed.

(** ** Elements in place *)
Lemma elem_steps_len {X} (op : nat -> X -> run X) n s : s ∈ elem_steps op n -> forall l r, s l = Done r -> length r = length l.
Proof. unfold elem_steps. intros (i & -> & _)%elem_of_list_fmap l r E. binv E. by apply wr_len in E. Qed.
Lemma block_steps_len {X} w pre (g : nat -> list X -> run (list X)) n s : s ∈ block_steps w pre g n -> forall l r, s l = Done r -> length r = length l.
Proof.
  unfold block_steps. intros [->|(i & -> & _)%elem_of_list_fmap]%elem_of_cons l r E; binv E; [done|]. by apply splice_len in E.
Qed.

(** Turns the facts about computations into facts about lengths. *)
Ltac lens := repeat match goal with
  | E : splice _ _ _ = Done _ |- _ => apply splice_len in E
  | E : wr _ _ _ = Done _ |- _ => apply wr_len in E
  | E : copy_into _ _ _ _ = Done _ |- _ => apply copy_into_len in E
  | E : memzero _ _ _ _ = Done _ |- _ => apply memzero_len in E
  | E : memcpy _ _ _ _ = Done _ |- _ => apply memcpy_len in E
  | E : array_to_complex _ = Done _ |- _ => apply array_to_complex_len in E
  | E : slice _ _ _ = Done _ |- _ => apply slice_len in E as [? ?]
  end.
Ltac spliced := apply frame_set; repeat match goal with E : splice _ _ _ = Done _ |- _ => apply splice_len in E end; congruence.

Lemma pure_real_operation_frame {A} s sched (op : A -> A) c v v' : pure_real_operation s sched op c v = Done v' -> frame v v'.
Proof. unfold pure_real_operation. intros E. binv E. spliced. Qed.
Lemma pure_complex_operation_frame {A} s sched (op : A * A -> A * A) c v v' : pure_complex_operation s sched op c v = Done v' -> frame v v'.
Proof. unfold pure_complex_operation. intros E. binv E. spliced. Qed.
Lemma simd_real_operation_frame {A} r addr s sched f (op : A -> A) c v v' : simd_real_operation r addr s sched f op c v = Done v' -> frame v v'.
Proof. unfold simd_real_operation. intros E. binv E. spliced. Qed.
Lemma simd_complex_operation_frame {A} r addr s sched f (op : A * A -> A * A) c v v' : simd_complex_operation r addr s sched f op c v = Done v' -> frame v v'.
Proof. unfold simd_complex_operation. intros E. binv E. spliced. Qed.
Lemma on_valid_real_frame {A} (v : dvec A) f v' : on_valid_real v f = Done v' -> frame v v'.
Proof. unfold on_valid_real. intros E. binv E. spliced. Qed.
Lemma on_valid_complex_frame {A} (v : dvec A) f v' : on_valid_complex v f = Done v' -> frame v v'.
Proof. unfold on_valid_complex. intros E. binv E. spliced. Qed.
Lemma on_reals_frame {A} f (v : dvec A) v' : on_reals f v = Done v' -> frame v v'.
Proof. unfold on_reals. intros E. binv E. spliced. Qed.
Lemma on_points_frame {A} f (v : dvec A) v' : on_points f v = Done v' -> frame v v'.
Proof. unfold on_points. intros E. binv E. spliced. Qed.
Lemma swap_halves_priv_frame {A} (v : dvec A) fw v' : swap_halves_priv v fw = Done v' -> frame v v'.
Proof. unfold swap_halves_priv. intros E. binv E; [done | by apply on_valid_complex_frame in E | by apply on_valid_real_frame in E]. Qed.

Section frames.
Context {A : Type} `{Num A} `{Flt A} `{Rem A} `{Trig A} `{Math A} `{F : Fft A} `{RA : Rounding A}.

Lemma apply_window_frame w s sched (v v' : dvec A) : apply_window w s sched v = Done v' -> frame v v'.
Proof. unfold apply_window. intros E. binv E; [by apply on_points_frame in E | by apply on_reals_frame in E]. Qed.
Lemma unapply_window_frame w s sched (v v' : dvec A) : unapply_window w s sched v = Done v' -> frame v v'.
Proof. unfold unapply_window. intros E. binv E; [by apply on_points_frame in E | by apply on_reals_frame in E]. Qed.

(** What marks a vector as invalid keeps its type; elements may only be taken away. *)
Definition shrinks (v v' : dvec A) : Prop :=
  valid_len v' <= valid_len v /\ alloc_len v' = alloc_len v /\ number_space v' = number_space v /\ domain v' = domain v /\
  (is_complex v = true -> Nat.even (valid_len v) = true -> Nat.even (valid_len v') = true).
Lemma shrinks_wf v v' : shrinks v v' -> wf v -> wf v'.
Proof.
  intros (E1 & E2 & E3 & _ & He) [K1 K2]. unfold wf, len, is_complex in *. rewrite E2, E3. split; [lia|]. intros Hc. apply He; auto.
Qed.
Lemma frame_shrinks v v' : frame v v' -> shrinks v v'.
Proof. intros (E1 & E2 & E3 & E4 & _). unfold shrinks. rewrite E1, E2, E3, E4. repeat split; auto. Qed.
Lemma invalid_shrinks v : shrinks v (mark_vector_as_invalid v).
Proof. unfold shrinks. cbn. repeat split; auto. lia. Qed.

Lemma decimate_points_len {P} (l : list P) pts factor delay j l' : decimate_points l pts factor delay = Done (j, l') -> length l' = length l /\ j <= length l.
Proof.
  unfold decimate_points. intros E. binv E.
  match goal with E0 : while_ _ _ _ _ = Done _ |- _ => pose proof E0 as E1;
    apply (while_inv' (fun '(i, k, x) => length x = length l /\ k <= length l)) in E1; [exact E1| |split; [done|lia]] end.
  intros [[i k] x] [[i' k'] x'] [Hl Hk] _ Eb. binv Eb.
  match goal with Ew : wr _ _ _ = Done _ |- _ => pose proof (wr_len _ _ _ _ Ew); unfold wr in Ew; binv Ew end.
  split; [congruence|]. match goal with Ec : (_ <? _) = true |- _ => apply Nat.ltb_lt in Ec end. lia.
Qed.
Lemma decimatei_shrinks v factor delay v' : decimatei v factor delay = Done v' -> shrinks v v'.
Proof.
  unfold decimatei. intros E. binv E.
  - apply decimate_points_len in E2 as [Hl Hj]. apply splice_len in E3. apply array_to_complex_len in E1. apply slice_len in E0 as [_ E0].
    unfold len in E0. unfold shrinks, alloc_len, s_len. cbn. rewrite E3.
    repeat split; [lia|]. intros _ _. rewrite Nat.even_mul. cbn. by rewrite orb_true_r.
  - apply decimate_points_len in E1 as [Hl Hj]. apply splice_len in E2. apply slice_len in E0 as [_ E0].
    unfold len in E0. unfold shrinks, alloc_len, s_len. cbn. rewrite E2. repeat split; [lia|]. intros Hc. congruence.
Qed.
Lemma diff_loop_len {P} (sub : P -> P -> P) n (d d' : list P) : diff_loop sub n d = Done d' -> length d' = length d.
Proof. unfold diff_loop. apply loop_len. intros i l r E. binv E. by apply wr_len in E. Qed.
Lemma diff_shrinks v v' : diff v = Done v' -> shrinks v v'.
Proof.
  unfold diff. intros E. binv E.
  - apply diff_loop_len in E3. apply array_to_complex_len in E1. unfold shrinks, alloc_len, s_len. cbn. rewrite complex_to_array_length, E3.
    unfold usub in E0. binv E0. apply Nat.leb_le in Ec0. unfold len in *. repeat split; [lia|symmetry; exact E1|].
    intros _ He. rewrite Nat.even_sub by lia. by rewrite He.
  - apply diff_loop_len in E1. unfold shrinks, alloc_len, s_len. cbn. unfold usub in E0. binv E0. apply Nat.leb_le in Ec0. unfold len in *.
    repeat split; [lia|exact E1|congruence].
Qed.
Lemma diff_start_loop_len {P} (sub : P -> P -> P) n (d d' : list P) : diff_start_loop sub n d = Done d' -> length d' = length d.
Proof.
  unfold diff_start_loop. intros E. binv E. apply (loop_inv' (fun '(x, _) => length x = length d)) in E2; [by destruct x1| |done].
  intros i [l t] [l' t'] Hl Eb. binv Eb. lens. congruence.
Qed.
Lemma diff_with_start_frame (v v' : dvec A) : diff_with_start v = Done v' -> frame v v'.
Proof.
  unfold diff_with_start. intros E. binv E; [done| |].
  - apply diff_start_loop_len in E1. apply array_to_complex_len in E0. apply frame_set. rewrite complex_to_array_length, E1. by symmetry.
  - apply diff_start_loop_len in E0. by apply frame_set.
Qed.
Lemma cum_sum_frame (v v' : dvec A) : cum_sum v = Done v' -> frame v v'.
Proof.
  unfold cum_sum. intros E. binv E. apply frame_set. revert E0. apply loop_len. intros i l r E. binv E. by apply wr_len in E.
Qed.
Lemma execute_small_len {X} s sched (l : list X) st f r :
  (forall rg n s, s ∈ f rg n -> forall l r, s l = Done r -> length r = length l) -> execute_with_range Small s sched l st f = Done r -> length r = length l.
Proof. intros Hf E. unfold execute_with_range in E. assert (En : determine_number_of_chunks (length l) Small s = 1) by (unfold determine_number_of_chunks; destruct (core_limit s =? 1) eqn:Eq; [by apply Nat.eqb_eq in Eq|done]). cbv zeta in E. rewrite En in E. change (1 <? 1) with false in E. cbv iota in E. revert E. apply run_steps_len. apply Hf. Qed.

Lemma unwrap_frame d (v v' : dvec A) : is_complex v = false -> unwrap d v = Done v' -> frame v v'.
Proof.
  unfold unwrap. intros Hc E. rewrite Hc in E. binv E. apply frame_set. revert E0. apply loop_len. intros i l r E. binv E; try done; by apply wr_len in E.
Qed.
Lemma unary_frame rf cf co s sched (v v' : dvec A) : unary rf cf co s sched v = Done v' -> frame v v'.
Proof. unfold unary. intros E. binv E; [by apply pure_complex_operation_frame in E | by apply pure_real_operation_frame in E]. Qed.


Lemma shrinks_refl (v : dvec A) : shrinks v v. Proof. apply frame_shrinks. done. Qed.
Lemma shrinks_trans (u v w : dvec A) : shrinks u v -> shrinks v w -> shrinks u w.
Proof.
  intros (E1 & E2 & E3 & E4 & E5) (G1 & G2 & G3 & G4 & G5). unfold shrinks, is_complex in *. rewrite E3 in G5. repeat split; try congruence; try lia. auto.
Qed.
Lemma check_complex_shrinks (v : dvec A) : shrinks v (check_complex v).
Proof.
  unfold check_complex. destruct (is_complex v) eqn:Hc; [apply shrinks_refl|]. cbn [negb]. 
  assert (En : ns_to_real (number_space v) = number_space v) by (unfold is_complex in Hc; destruct (number_space v) as [| |[]]; done).
  unfold shrinks. cbn. rewrite En. repeat split; lia.
Qed.
Lemma vconj_shrinks r addr s sched (v v' : dvec A) : vconj r addr s sched v = Done v' -> shrinks v v'.
Proof.
  unfold vconj. intros E. apply simd_complex_operation_frame in E. apply frame_shrinks in E. eapply shrinks_trans, E. apply check_complex_shrinks.
Qed.
Lemma exponential_shrinks s sched a b (v v' : dvec A) : multiply_complex_exponential s sched a b v = Done v' -> shrinks v v'.
Proof.
  unfold multiply_complex_exponential. intros E. binv E. eapply shrinks_trans; [apply check_complex_shrinks|]. apply frame_shrinks. spliced.
Qed.
Lemma map_inplace_shrinks f s sched (v v' : dvec A) : map_inplace f s sched v = Done v' -> shrinks v v'.
Proof.
  unfold map_inplace. intros E. binv E; [apply invalid_shrinks|]. apply frame_shrinks, frame_set. revert E0. apply execute_small_len.
  intros rg n st. apply elem_steps_len.
Qed.
Lemma map_inplace_complex_shrinks f s sched (v v' : dvec A) : map_inplace_complex f s sched v = Done v' -> shrinks v v'.
Proof.
  unfold map_inplace_complex. intros E. binv E; [apply invalid_shrinks|]. apply frame_shrinks, frame_set. revert E0. apply execute_small_len.
  intros rg n st. apply block_steps_len.
Qed.

Lemma vec_inplace_shrinks e op i (v v' : dvec A) : vec_inplace e op i v = Done v' -> shrinks v v'.
Proof.
  intros E. destruct op; cbn [vec_inplace] in E.
  - apply frame_shrinks. exact (simd_real_operation_frame _ _ _ _ _ _ _ _ _ E).
  - unfold offset_real in E. binv E; apply frame_shrinks; [exact (simd_complex_operation_frame _ _ _ _ _ _ _ _ _ E) | exact (simd_real_operation_frame _ _ _ _ _ _ _ _ _ E)].
  - unfold scale_complex in E. binv E; [apply invalid_shrinks|]. apply frame_shrinks. exact (simd_complex_operation_frame _ _ _ _ _ _ _ _ _ E).
  - unfold offset_complex in E. binv E; [apply invalid_shrinks|]. apply frame_shrinks. exact (simd_complex_operation_frame _ _ _ _ _ _ _ _ _ E).
  - unfold vreverse in E. binv E; apply frame_shrinks; [exact (on_valid_complex_frame _ _ _ E) | exact (on_valid_real_frame _ _ _ E)].
  - apply frame_shrinks. exact (swap_halves_priv_frame _ _ _ E).
  - by apply diff_shrinks.
  - apply frame_shrinks. by apply diff_with_start_frame.
  - apply frame_shrinks. by apply cum_sum_frame.
  - apply frame_shrinks. exact (unary_frame _ _ _ _ _ _ _ E).
  - unfold vsqrt in E. binv E; apply frame_shrinks; [exact (pure_complex_operation_frame _ _ _ _ _ _ E) | exact (simd_real_operation_frame _ _ _ _ _ _ _ _ _ E)].
  - unfold vsquare in E. binv E; apply frame_shrinks; [exact (pure_complex_operation_frame _ _ _ _ _ _ E) | exact (simd_real_operation_frame _ _ _ _ _ _ _ _ _ E)].
  - apply frame_shrinks. exact (unary_frame _ _ _ _ _ _ _ E).
  - apply frame_shrinks. exact (unary_frame _ _ _ _ _ _ _ E).
  - apply frame_shrinks. exact (unary_frame _ _ _ _ _ _ _ E).
  - apply frame_shrinks. exact (unary_frame _ _ _ _ _ _ _ E).
  - exact (map_inplace_shrinks _ _ _ _ _ E).
  - exact (map_inplace_complex_shrinks _ _ _ _ _ E).
  - unfold vabs in E. binv E; [apply invalid_shrinks|]. apply frame_shrinks. exact (simd_real_operation_frame _ _ _ _ _ _ _ _ _ E).
  - unfold wrap in E. binv E; [apply invalid_shrinks|]. apply frame_shrinks. exact (pure_real_operation_frame _ _ _ _ _ _ E).
  - destruct (is_complex v) eqn:Hc; [unfold unwrap in E; rewrite Hc in E; injection E as <-; apply invalid_shrinks|].
    apply frame_shrinks. exact (unwrap_frame _ _ _ Hc E).
  - unfold vapprox in E. destruct (is_complex v); [injection E as <-; apply invalid_shrinks|]. apply frame_shrinks.
    destruct f; exact (simd_real_operation_frame _ _ _ _ _ _ _ _ _ E).
  - exact (exponential_shrinks _ _ _ _ _ _ E).
  - exact (vconj_shrinks _ _ _ _ _ _ E).
  - apply frame_shrinks. exact (swap_halves_priv_frame _ _ _ E).
  - apply frame_shrinks. exact (swap_halves_priv_frame _ _ _ E).
  - apply frame_shrinks. exact (apply_window_frame _ _ _ _ _ E).
  - apply frame_shrinks. exact (unapply_window_frame _ _ _ _ _ E).
  - unfold multiply_real_response in E. binv E; [apply invalid_shrinks| |]; apply frame_shrinks; [exact (on_points_frame _ _ _ E) | exact (on_reals_frame _ _ _ E)].
  - unfold multiply_complex_response in E. binv E; [apply invalid_shrinks|]. apply frame_shrinks. exact (on_points_frame _ _ _ E).
  - exact (decimatei_shrinks _ _ _ _ E).
  - injection E as <-. unfold shrinks. cbn. repeat split; auto.
Qed.
End frames.
