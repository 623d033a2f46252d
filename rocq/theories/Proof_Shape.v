(** The tables of Spec_Shape.v are right. *)
From Verif Require Export Spec_Shape Proof_Invalid.
From Verif Require Import Proof_Base Proof_Vec Proof_Chunk Proof_Interp Proof_FftMore.

Section shapes.
Context {A : Type} `{Num A} `{Flt A} `{Rem A} `{Trig A} `{Math A} `{F : Fft A} `{RA : Rounding A}.
Implicit Types v w : dvec A.

Lemma shape_eq v (s : shape A) : valid_len v = sh_len s -> number_space v = sh_space s -> domain v = sh_domain s -> delta v = sh_delta s -> shape_of v = s.
Proof. destruct s. unfold shape_of, len. cbn. congruence. Qed.
Lemma frame_shape v w : frame v w -> shape_of w = shape_of v.
Proof. intros (E1 & _ & E3 & E4 & E5). unfold shape_of, len. congruence. Qed.
Lemma complex_shape v : sh_complex (shape_of v) = is_complex v. Proof. done. Qed.
Lemma dom_shape v : sh_dom (shape_of v) = vdomain v. Proof. done. Qed.
Lemma points_shape v : sh_points (shape_of v) = points v.
Proof. unfold sh_points, points. rewrite complex_shape. destruct (is_complex v); [done|]. by rewrite Nat.div_1_r. Qed.
Lemma invalid_shape v : shape_of (mark_vector_as_invalid v) = emptied (shape_of v).
Proof. done. Qed.
(** The requirements *)
Lemma meets_spec q v : meets q (shape_of v) = true <-> ~ lacks q v.
Proof.
  unfold meets, lacks. rewrite complex_shape, dom_shape. destruct q as [[c|] [d|]]; cbn [r_space r_domain]; split; intros K.
  1,3,5,7: intros [(x & Ex & Hx)|(x & Ex & Hx)]; try discriminate Ex; injection Ex as <-; 
    repeat match goal with x : bool |- _ => destruct x | x : ddomain |- _ => destruct x end; 
    try (destruct (is_complex v)); try (destruct (vdomain v)); cbn in *; congruence.
  - destruct (Bool.eqb c (is_complex v)) eqn:E1; cbn [andb].
    + destruct d, (vdomain v) eqn:Ed; try done; exfalso; apply K; right; eexists; (split; [reflexivity|]); congruence.
    + exfalso. apply K. left. exists c. split; [done|]. intros E. rewrite E, Bool.eqb_reflx in E1. done.
  - rewrite andb_true_r. destruct (Bool.eqb c (is_complex v)) eqn:E1; [done|].
    exfalso. apply K. left. exists c. split; [done|]. intros E. rewrite E, Bool.eqb_reflx in E1. done.
  - cbn [andb]. destruct d, (vdomain v) eqn:Ed; try done; exfalso; apply K; right; eexists; (split; [reflexivity|]); congruence.
  - done.
Qed.
Lemma meets_complex v : meets a_complex (shape_of v) = is_complex v.
Proof. unfold meets. cbn. rewrite complex_shape. by destruct (is_complex v). Qed.
Lemma meets_real v : meets a_real (shape_of v) = negb (is_complex v).
Proof. unfold meets. cbn. rewrite complex_shape. by destruct (is_complex v). Qed.

(** ** In place *)
Lemma check_complex_shape v : shape_of (check_complex v) = if is_complex v then shape_of v else emptied (shape_of v).
Proof.
  unfold check_complex. destruct (is_complex v) eqn:Hc; [done|]. cbn [negb]. apply shape_eq; try done. cbn.
  unfold is_complex in Hc. by destruct (number_space v) as [| |[]].
Qed.
Lemma diff_shape v w : diff v = Done w -> shape_of w = inplace_shape Diff (shape_of v).
Proof.
  unfold diff. intros E. cbn [inplace_shape]. rewrite complex_shape. binv E; unfold usub in E0; binv E0; by apply shape_eq.
Qed.
Lemma while_exit {S} (cond : S -> bool) (body : S -> run S) fuel : forall s r, while_ fuel cond body s = Done r -> cond r = false.
Proof.
  induction fuel as [|n IH]; intros s r E; cbn [while_] in E; [discriminate E|]. destruct (cond s) eqn:Ec; [|by injection E as <-]. binv E. by apply IH in E.
Qed.
Lemma decimated_count {P} (l : list P) pts k d j l' : decimate_points l pts k d = Done (j, l') -> j = (pts - d + (k - 1)) / k.
Proof.
  unfold decimate_points. intros E. binv E.
  match goal with E0 : while_ _ _ _ _ = Done _ |- _ => pose proof (while_exit _ _ _ _ _ E0) as Hx;
    apply (while_inv' (fun '(i, n, _) => i = d + n * k /\ (n = 0 \/ d + (n - 1) * k < pts))) in E0; [|clear|split; [lia|by left]] end.
  - destruct E0 as [-> Hj]. apply Nat.ltb_ge in Hx. destruct k as [|k].
    + cbn. destruct Hj as [-> |Hj]; [done|lia].
    + destruct Hj as [-> |Hj].
      * symmetry. apply Nat.div_small. lia.
      * destruct j as [|j]; [symmetry; apply Nat.div_small; lia|]. replace (Datatypes.S j - 1) with j in Hj by lia.
        apply (Nat.div_unique _ _ _ (pts - d + k - Datatypes.S j * Datatypes.S k)); nia.
  - intros [[i n] x] [[i' n'] x'] [-> Hn] Hc E. binv E. apply Nat.ltb_lt in Hc. split; [lia|]. right. replace (n + 1 - 1) with n by lia. exact Hc.
Qed.
Lemma decimatei_shape v k d w : decimatei v k d = Done w -> shape_of w = inplace_shape (Decimatei k d) (shape_of v).
Proof.
  unfold decimatei. intros E. cbn [inplace_shape]. cbv zeta. rewrite complex_shape, points_shape. binv E;
    match goal with E : decimate_points _ _ _ _ = _ |- _ => apply decimated_count in E end; apply shape_eq; try done; cbn; subst.
  - apply Nat.mul_comm.
  - unfold points. rewrite Ec. by rewrite Nat.div_1_r.
Qed.
Lemma map_inplace_frame f s sched v w : is_complex v = false -> map_inplace f s sched v = Done w -> frame v w.
Proof.
  unfold map_inplace. intros Hc E. rewrite Hc in E. binv E. apply frame_set. revert E0. apply execute_small_len. intros rg n st. apply elem_steps_len.
Qed.
Lemma map_inplace_complex_frame f s sched v w : is_complex v = true -> map_inplace_complex f s sched v = Done w -> frame v w.
Proof.
  unfold map_inplace_complex. intros Hc E. rewrite Hc in E. cbn [negb] in E. binv E. apply frame_set. revert E0. apply execute_small_len. intros rg n st. apply block_steps_len.
Qed.
(** The methods which need nothing or don't look *)
Lemma free_shape e op i v w : vec_inplace e op i v = Done w ->
  match op with
  | Scale _ | Offset _ | Reverse | Swap_halves | Diff_with_start | Cum_sum | Elementary _ | Sqrt | Square | Root _ | Powf _ | Log _ | Expf _
  | Fft_shift | Ifft_shift | Apply_window _ | Unapply_window _ => frame v w
  | _ => True
  end.
Proof.
  intros E. destruct op; try exact I; cbn [vec_inplace] in E.
  - exact (simd_real_operation_frame _ _ _ _ _ _ _ _ _ E).
  - unfold offset_real in E. binv E; [exact (simd_complex_operation_frame _ _ _ _ _ _ _ _ _ E) | exact (simd_real_operation_frame _ _ _ _ _ _ _ _ _ E)].
  - unfold vreverse in E. binv E; [exact (on_valid_complex_frame _ _ _ E) | exact (on_valid_real_frame _ _ _ E)].
  - exact (swap_halves_priv_frame _ _ _ E).
  - exact (diff_with_start_frame _ _ E).
  - exact (cum_sum_frame _ _ E).
  - exact (unary_frame _ _ _ _ _ _ _ E).
  - unfold vsqrt in E. binv E; [exact (pure_complex_operation_frame _ _ _ _ _ _ E) | exact (simd_real_operation_frame _ _ _ _ _ _ _ _ _ E)].
  - unfold vsquare in E. binv E; [exact (pure_complex_operation_frame _ _ _ _ _ _ E) | exact (simd_real_operation_frame _ _ _ _ _ _ _ _ _ E)].
  - exact (unary_frame _ _ _ _ _ _ _ E).
  - exact (unary_frame _ _ _ _ _ _ _ E).
  - exact (unary_frame _ _ _ _ _ _ _ E).
  - exact (unary_frame _ _ _ _ _ _ _ E).
  - exact (swap_halves_priv_frame _ _ _ E).
  - exact (swap_halves_priv_frame _ _ _ E).
  - exact (apply_window_frame _ _ _ _ _ E).
  - exact (unapply_window_frame _ _ _ _ _ E).
Qed.
(** The methods which need a number space *)
Lemma complex_only_shape e op i v w : vec_inplace e op i v = Done w ->
  match op with
  | Scale_complex _ | Offset_complex _ | Map_inplace_complex _ | Conj | Multiply_complex_exponential _ _ =>
      shape_of w = if is_complex v then shape_of v else emptied (shape_of v)
  | Map_inplace _ | Abs | Wrap _ | Unwrap _ | Approximated _ => shape_of w = if is_complex v then emptied (shape_of v) else shape_of v
  | _ => True
  end.
Proof.
  intros E. destruct op; try exact I; cbn [vec_inplace] in E.
  - unfold scale_complex in E. destruct (is_complex v); cbn [negb] in E; [|by injection E as <-]. apply frame_shape. exact (simd_complex_operation_frame _ _ _ _ _ _ _ _ _ E).
  - unfold offset_complex in E. destruct (is_complex v); cbn [negb] in E; [|by injection E as <-]. apply frame_shape. exact (simd_complex_operation_frame _ _ _ _ _ _ _ _ _ E).
  - destruct (is_complex v) eqn:Hc; [unfold map_inplace in E; rewrite Hc in E; by injection E as <-|]. apply frame_shape. exact (map_inplace_frame _ _ _ _ _ Hc E).
  - destruct (is_complex v) eqn:Hc; [|unfold map_inplace_complex in E; rewrite Hc in E; by injection E as <-].
    apply frame_shape. exact (map_inplace_complex_frame _ _ _ _ _ Hc E).
  - unfold vabs in E. destruct (is_complex v); [by injection E as <-|]. apply frame_shape. exact (simd_real_operation_frame _ _ _ _ _ _ _ _ _ E).
  - unfold wrap in E. destruct (is_complex v); [by injection E as <-|]. apply frame_shape. exact (pure_real_operation_frame _ _ _ _ _ _ E).
  - destruct (is_complex v) eqn:Hc; [unfold unwrap in E; rewrite Hc in E; by injection E as <-|]. apply frame_shape. exact (unwrap_frame _ _ _ Hc E).
  - unfold vapprox in E. destruct (is_complex v); [by injection E as <-|]. apply frame_shape.
    destruct f; exact (simd_real_operation_frame _ _ _ _ _ _ _ _ _ E).
  - unfold multiply_complex_exponential in E. rewrite <- (check_complex_shape v). binv E. apply frame_shape. spliced.
  - unfold vconj in E. rewrite <- (check_complex_shape v). apply frame_shape. exact (simd_complex_operation_frame _ _ _ _ _ _ _ _ _ E).
Qed.
Lemma response_shape e op i v w : vec_inplace e op i v = Done w ->
  match op with
  | Multiply_real_response _ _ => shape_of w = if ddomain_eqb (vdomain v) Frequency then shape_of v else emptied (shape_of v)
  | Multiply_complex_response _ _ => shape_of w = if is_complex v && ddomain_eqb (vdomain v) Frequency then shape_of v else emptied (shape_of v)
  | _ => True
  end.
Proof.
  intros E. destruct op; try exact I; cbn [vec_inplace] in E.
  - unfold multiply_real_response in E. destruct (ddomain_eqb (vdomain v) Frequency); cbn [negb] in E; [|by injection E as <-]. apply frame_shape.
    destruct (is_complex v); [exact (on_points_frame _ _ _ E) | exact (on_reals_frame _ _ _ E)].
  - unfold multiply_complex_response in E. destruct (is_complex v), (ddomain_eqb (vdomain v) Frequency); cbn [negb andb orb] in *; try (by injection E as <-).
    apply frame_shape. exact (on_points_frame _ _ _ E).
Qed.
Lemma meets_anything (s : shape A) : meets anything s = true. Proof. done. Qed.
Lemma meets_freq v : meets in_frequency (shape_of v) = ddomain_eqb (vdomain v) Frequency.
Proof. unfold meets. cbn. rewrite dom_shape. by destruct (vdomain v). Qed.
Lemma meets_complex_freq v : meets a_complex_in_frequency (shape_of v) = is_complex v && ddomain_eqb (vdomain v) Frequency.
Proof. unfold meets. cbn. rewrite dom_shape, complex_shape. by destruct (is_complex v), (vdomain v). Qed.
Lemma inplace_shape_right e op i v w : vec_inplace e op i v = Done w -> shape_of w = inplace_shape op (shape_of v).
Proof.
  intros E. pose proof (free_shape _ _ _ _ _ E) as Hf. pose proof (complex_only_shape _ _ _ _ _ E) as Hc. pose proof (response_shape _ _ _ _ _ E) as Hr.
  destruct op; cbn [inplace_shape inplace_needs]; rewrite ?meets_complex, ?meets_real, ?meets_anything, ?meets_freq, ?meets_complex_freq; try exact (frame_shape _ _ Hf); try exact Hc; try exact Hr.
  - exact (diff_shape _ _ E).
  - rewrite Hc. by destruct (is_complex v).
  - rewrite Hc. by destruct (is_complex v).
  - rewrite Hc. by destruct (is_complex v).
  - rewrite Hc. by destruct (is_complex v).
  - rewrite Hc. by destruct (is_complex v).
  - exact (decimatei_shape _ _ _ _ E).
  - by injection E as <-.
Qed.

(** ** Conversions *)
Lemma rededicate_shape t v : shape_of (rededicate_from_force t v) = typed_as t (shape_of v).
Proof. by destruct t. Qed.
Lemma real_result_shape v w : typed v -> number_space w = ns_to_real (number_space v) -> domain w = domain v ->
  shape_of (rededicate_from_force (real_result v) w) = as_space false (shape_of w).
Proof.
  intros Ht En Ed. rewrite rededicate_shape. unfold shape_of, typed_as, as_space, real_result, typed, sh_complex, sh_dom in *. cbn. rewrite En, Ed.
  destruct (number_space v) as [| |[]] eqn:Hn, (domain v) eqn:Hd; cbn; done.
Qed.
Lemma complex_result_shape v w : typed v -> number_space w = ns_to_complex (number_space v) -> domain w = domain v ->
  shape_of (rededicate_from_force (complex_result v) w) = as_space true (shape_of w).
Proof.
  intros Ht En Ed. rewrite rededicate_shape. unfold shape_of, typed_as, as_space, complex_result, typed, sh_complex, sh_dom in *. cbn. rewrite En, Ed.
  destruct (number_space v) as [| |[]] eqn:Hn, (domain v) eqn:Hd; cbn; done.
Qed.
Lemma not_complex_shape v : typed v -> is_complex v = false -> shape_of (not_complex v) = halved (shape_of v).
Proof.
  intros Ht Hc. unfold not_complex, halved. rewrite complex_shape, Hc. rewrite real_result_shape by done.
  unfold as_space, emptied, shape_of, mark_vector_as_invalid, vec_to_real. cbn. by destruct (number_space v).
Qed.
Lemma halved_shape v w : typed v -> is_complex v = true -> valid_len w = len v / 2 -> number_space w = number_space v -> domain w = domain v -> delta w = delta v ->
  shape_of (rededicate_from_force (real_result v) (vec_to_real w)) = halved (shape_of v).
Proof.
  intros Ht Hc El En Ed Ex. unfold halved. rewrite complex_shape, Hc. rewrite real_result_shape; [|done|cbn; by rewrite En|exact Ed].
  unfold as_space, shape_of, vec_to_real, len in *. cbn. rewrite El, En, Ed, Ex. by destruct (number_space v).
Qed.
Lemma complex_to_real_shape op v w : typed v -> complex_to_real op v = Done w -> shape_of w = halved (shape_of v).
Proof.
  intros Ht E. unfold complex_to_real in E. destruct (is_complex v) eqn:Hc; cbn [negb] in E; [|injection E as <-; by apply not_complex_shape].
  unfold pure_complex_to_real_operation_inplace in E. binv E. deep. by apply halved_shape.
Qed.
Lemma conversion_shape_right op v w : typed v -> vec_conversion op v = Done w -> shape_of w = conversion_shape op (shape_of v).
Proof.
  intros Ht E. destruct op; cbn [vec_conversion conversion_shape] in *; try exact (complex_to_real_shape _ _ _ Ht E).
  - injection E as <-. apply rededicate_shape.
  - injection E as <-. destruct t; try apply rededicate_shape. done.
Qed.

(** ** With a buffer *)
Lemma complex_to_real_b_shape op s sched b v w b' : typed v -> complex_to_real_b op s sched b v = Done (w, b') -> shape_of w = halved (shape_of v).
Proof.
  intros Ht E. unfold complex_to_real_b in E. destruct (is_complex v) eqn:Hc; cbn [negb] in E; [|injection E as <- <-; by apply not_complex_shape].
  unfold pure_complex_to_real_operation in E. binv E. deep. by apply halved_shape.
Qed.
Lemma complex_to_real_simd_b_shape ro op r addr s sched b v w b' : typed v -> complex_to_real_simd_b ro op r addr s sched b v = Done (w, b') ->
  shape_of w = halved (shape_of v).
Proof.
  intros Ht E. unfold complex_to_real_simd_b in E. destruct (is_complex v) eqn:Hc; cbn [negb] in E; [|injection E as <- <-; by apply not_complex_shape].
  unfold simd_complex_to_real_operation in E. binv E. deep. by apply halved_shape.
Qed.
Lemma zero_interleave_b_shape b v k w b' : zero_interleave_b n0 b v k = Done (w, b') -> 1 <= k -> shape_of w = with_len (k * len v) (shape_of v).
Proof.
  unfold zero_interleave_b. intros E Hk. binv E; try by apply shape_eq.
  apply Nat.leb_le in Ec. assert (k = 1) as -> by lia. apply shape_eq; try done. cbn. unfold len. lia.
Qed.
Lemma to_complex_b_shape b v w b' : typed v -> to_complex_b b v = Done (w, b') -> shape_of w = buffered_shape To_complex_b (shape_of v).
Proof.
  intros Ht E. unfold to_complex_b in E. cbn [buffered_shape]. rewrite complex_shape. destruct (is_complex v) eqn:Hc.
  - injection E as <- <-. rewrite complex_result_shape by done. unfold as_space, emptied, shape_of, mark_vector_as_invalid, vec_to_complex. cbn.
    by destruct (number_space v).
  - unfold doubled. rewrite complex_shape, Hc. binv E. match goal with E : zero_interleave_b _ _ _ _ = _ |- _ => apply zero_interleave_b_shape in E as Es; [|lia] end.
    assert (En : number_space d = number_space v) by exact (f_equal sh_space Es). assert (Ed : domain d = domain v) by exact (f_equal sh_domain Es).
    assert (El : len d = 2 * len v) by exact (f_equal sh_len Es). assert (Ex : delta d = delta v) by exact (f_equal sh_delta Es).
    rewrite complex_result_shape; [|done|cbn; by rewrite En|exact Ed].
    unfold as_space, shape_of, vec_to_complex, len in *. cbn. rewrite El, En, Ed, Ex. by destruct (number_space v).
Qed.

(** ** Transforms *)
Lemma run_fft_shape f b v w b' : run_fft f b v = Done (w, b') -> shape_of w = with_delta (nofnat (len v / 2) * delta v)%num (shape_of v).
Proof. unfold run_fft. intros E. binv E. by apply shape_eq. Qed.
Lemma made_complex_shape b v w b' : made_complex b v = Done (w, b') -> is_complex v = false \/ is_complex v = true ->
  len w = (if is_complex v then len v else 2 * len v) /\ domain w = domain v /\ delta w = delta v /\
  number_space w = (if is_complex v then number_space v else ns_to_complex (number_space v)).
Proof.
  unfold made_complex. intros E _. destruct (is_complex v) eqn:Hc; cbn [negb] in E; binv E; [done|].
  match goal with E : zero_interleave_b _ _ _ _ = _ |- _ => apply zero_interleave_b_shape in E as Es; [|lia] end.
  assert (En : number_space d = number_space v) by exact (f_equal sh_space Es). assert (Ed : domain d = domain v) by exact (f_equal sh_domain Es).
  assert (El : len d = 2 * len v) by exact (f_equal sh_len Es). assert (Ex : delta d = delta v) by exact (f_equal sh_delta Es).
  split_and!; try done. cbn. by rewrite En.
Qed.
Lemma transform_core f t b v w b' :
  ('(v, b) ← made_complex b v; '(v, b) ← run_fft f b v; Done (rededicate_from_force t (vec_to_freq v), b)) = Done (w, b') ->
  exists u, shape_of w = typed_as t (shape_of (vec_to_freq u)) /\ len u = (if is_complex v then len v else 2 * len v) /\ domain u = domain v /\
    delta u = (nofnat (len u / 2) * delta v)%num /\ number_space u = (if is_complex v then number_space v else ns_to_complex (number_space v)).
Proof.
  intros E. binv E. match goal with E : made_complex _ _ = _ |- _ => apply made_complex_shape in E as (El & Ed & Ex & En); [|destruct (is_complex v); auto] end.
  match goal with E : run_fft _ _ _ = _ |- _ => apply run_fft_shape in E as Es end.
  match goal with |- context [rededicate_from_force t (vec_to_freq ?u)] => exists u; rename u into d1 end. split; [apply rededicate_shape|].
  assert (G1 : len d1 = len d) by exact (f_equal sh_len Es). assert (G2 : number_space d1 = number_space d) by exact (f_equal sh_space Es).
  assert (G3 : domain d1 = domain d) by exact (f_equal sh_domain Es). assert (G4 : delta d1 = (nofnat (len d / 2) * delta d)%num) by exact (f_equal sh_delta Es).
  rewrite G1, G2, G3, G4, El, Ed, Ex, En. done.
Qed.
Lemma shape_destruct v : shape_of v = Shape (len v) (number_space v) (domain v) (delta v). Proof. done. Qed.
Lemma plain_fft_shape b v w b' : typed v -> plain_fft b v = Done (w, b') -> shape_of w = to_frequency (shape_of v).
Proof.
  intros Ht E. unfold plain_fft in E. unfold to_frequency. rewrite dom_shape. destruct (vdomain v) eqn:Hd; cbn [negb ddomain_eqb] in E.
  - apply transform_core in E as (u & -> & El & Ed & Ex & En). revert El Ed Ex En. unfold transformed, doubled. cbv zeta. rewrite complex_shape.
    rewrite shape_destruct. cbn [vec_to_freq set_domain number_space domain delta]. change (len (vec_to_freq u)) with (len u). intros El Ed Ex En.
    rewrite Ex, El, En, Ed. clear Ex El En Ed. unfold typed, freq_result, gen_or, vdomain, is_complex in *. unfold sh_points, sh_complex, as_space, as_domain, with_delta, with_len, shape_of, typed_as, sh_dom.
    destruct (number_space v) as [| |[]], (domain v) as [| |[]]; cbn in *; try done.
  - injection E as <- <-. unfold invalid_transform. rewrite rededicate_shape. unfold typed, freq_result, gen_or, vdomain in *.
    destruct v as [dt x [| |[]] [| |[]] vl]; cbn in *; done.
Qed.
Lemma plain_ifft_shape b v w b' : typed v -> plain_ifft b v = Done (w, b') -> shape_of w = from_frequency (shape_of v).
Proof.
  intros Ht E. unfold plain_ifft in E. unfold from_frequency. rewrite dom_shape. destruct (vdomain v) eqn:Hd; cbn [negb ddomain_eqb] in E.
  - injection E as <- <-. unfold invalid_transform. rewrite rededicate_shape. unfold typed, time_result, gen_or, vdomain in *.
    destruct v as [dt x [| |[]] [| |[]] vl]; cbn in *; done.
  - apply transform_core in E as (u & -> & El & Ed & Ex & En). revert El Ed Ex En. unfold transformed, doubled. cbv zeta. rewrite complex_shape.
    rewrite shape_destruct. cbn [vec_to_freq set_domain number_space domain delta]. change (len (vec_to_freq u)) with (len u). intros El Ed Ex En.
    rewrite Ex, El, En, Ed. clear Ex El En Ed. unfold typed, time_result, gen_or, vdomain, is_complex in *. unfold sh_points, sh_complex, back_to, as_space, as_domain, with_delta, with_len, shape_of, typed_as, sh_dom.
    destruct (number_space v) as [| |[]], (domain v) as [| |[]]; cbn in *; try done.
Qed.
Lemma swap_shape v fw w : swap_halves_priv v fw = Done w -> shape_of w = shape_of v.
Proof. intros E. apply swap_halves_priv_frame in E. by apply frame_shape. Qed.
Lemma vfft_shape b v w b' : typed v -> vfft b v = Done (w, b') -> shape_of w = to_frequency (shape_of v).
Proof.
  intros Ht E. unfold vfft in E. binv E. match goal with E : plain_fft _ _ = _ |- _ => apply plain_fft_shape in E as <-; [|done] end.
  match goal with E : fft_shift _ = _ |- _ => exact (swap_shape _ _ _ E) end.
Qed.
Lemma shape_typed v w : shape_of w = shape_of v -> typed v -> typed w.
Proof. intros E. unfold typed. assert (En : number_space w = number_space v) by exact (f_equal sh_space E). assert (Ed : domain w = domain v) by exact (f_equal sh_domain E). by rewrite En, Ed. Qed.
Lemma windowed_fft_shape wd s sched b v w b' : typed v -> windowed_fft wd s sched b v = Done (w, b') -> shape_of w = to_frequency (shape_of v).
Proof.
  intros Ht E. unfold windowed_fft in E. binv E. match goal with E : apply_window _ _ _ _ = _ |- _ => apply apply_window_frame in E as Ew; apply frame_shape in Ew end.
  match goal with E : plain_fft _ _ = _ |- _ => apply plain_fft_shape in E as Es; [|by apply (shape_typed v)] end. rewrite <- Ew, <- Es.
  match goal with E : fft_shift _ = _ |- _ => exact (swap_shape _ _ _ E) end.
Qed.
Lemma vifft_shape r addr s sched b v w b' : typed v -> vifft r addr s sched b v = Done (w, b') -> shape_of w = from_frequency (shape_of v).
Proof.
  intros Ht E. unfold vifft in E. binv E. match goal with E : scale_real _ _ _ _ _ _ = _ |- _ => apply simd_real_operation_frame in E as Es; apply frame_shape in Es end.
  match goal with E : ifft_shift _ = _ |- _ => apply swap_shape in E as Ew end. rewrite Es in Ew. apply plain_ifft_shape in E; [|by apply (shape_typed v)]. by rewrite E, Ew.
Qed.
Lemma windowed_ifft_shape wd r addr s sched sched' b v w b' : typed v -> windowed_ifft wd r addr s sched sched' b v = Done (w, b') ->
  shape_of w = from_frequency (shape_of v).
Proof.
  intros Ht E. unfold windowed_ifft in E. binv E. match goal with E : vifft _ _ _ _ _ _ = _ |- _ => apply vifft_shape in E as <-; [|done] end.
  match goal with E : unapply_window _ _ _ _ = _ |- _ => apply unapply_window_frame in E; by apply frame_shape end.
Qed.
Lemma to_frequency_complex (s : shape A) : sh_complex (to_frequency s) = true \/ sh_len (to_frequency s) = 0 /\ sh_delta (to_frequency s) = nnan.
Proof.
  destruct s as [n sp d x]. unfold to_frequency, transformed, doubled. cbv zeta. unfold sh_dom, sh_complex at 1. cbn.
  destruct sp as [| |[]], d as [| |[]]; cbn; auto.
Qed.
Lemma vconj_shape r addr s sched v w : vconj r addr s sched v = Done w -> is_complex v = true -> shape_of w = shape_of v.
Proof.
  unfold vconj. intros E Hc. unfold check_complex in E. rewrite Hc in E. cbn [negb] in E. apply frame_shape. exact (simd_complex_operation_frame _ _ _ _ _ _ _ _ _ E).
Qed.
Lemma to_frequency_is_complex v (s : shape A) : shape_of v = to_frequency s -> is_complex v = true.
Proof.
  intros E. rewrite <- complex_shape, E. destruct s as [n sp d x]. unfold to_frequency, transformed, doubled. cbv zeta. unfold sh_dom, sh_complex. cbn.
  destruct sp as [| |[]], d as [| |[]]; cbn; auto.
Qed.
Lemma prepare_shape r addr s sched b v w b' : typed v -> prepare_argument r addr s sched b v = Done (w, b') -> shape_of w = to_frequency (shape_of v).
Proof.
  intros Ht E. unfold prepare_argument in E. binv E. match goal with E : plain_fft _ _ = _ |- _ => apply plain_fft_shape in E as Es; [|done] end.
  rewrite <- Es. match goal with E : vconj _ _ _ _ _ = _ |- _ => apply vconj_shape in E; [done|by apply to_frequency_is_complex in Es] end.
Qed.
Lemma zero_pad_b_shape b v n o w b' : zero_pad_b n0 b v n o = Done (w, b', Ok tt) -> shape_of w = with_len (if is_complex v then 2 * n else n) (shape_of v).
Proof. unfold zero_pad_b. intros E. binv E; try discriminate E; by apply shape_eq. Qed.
Lemma prepare_padded_shape r addr s sched b v w b' : typed v -> prepare_argument_padded r addr s sched b v = Done (w, b') ->
  shape_of w = buffered_shape Prepare_argument_padded (shape_of v).
Proof.
  intros Ht E. unfold prepare_argument_padded in E. cbn [buffered_shape]. cbv zeta. rewrite points_shape, complex_shape. binv E.
  match goal with E : usub _ _ = _ |- _ => unfold usub in E; binv E end.
  match goal with E : zero_pad_b _ _ _ _ _ = Done (_, _, Ok ?u) |- _ => destruct u; apply zero_pad_b_shape in E as Es end.
  apply prepare_shape in E; [by rewrite E, Es|].
  unfold typed in *. assert (En : number_space d = number_space v) by exact (f_equal sh_space Es). assert (Ed : domain d = domain v) by exact (f_equal sh_domain Es).
  by rewrite En, Ed.
Qed.
Lemma buffered_shape_right e op i b v w b' : typed v -> vec_buffered e op i b v = Done (w, b') -> shape_of w = buffered_shape op (shape_of v).
Proof.
  intros Ht E. destruct op; cbn [vec_buffered] in E.
  - exact (complex_to_real_simd_b_shape _ _ _ _ _ _ _ _ _ _ Ht E).
  - exact (complex_to_real_simd_b_shape _ _ _ _ _ _ _ _ _ _ Ht E).
  - exact (complex_to_real_b_shape _ _ _ _ _ _ _ Ht E).
  - exact (complex_to_real_b_shape _ _ _ _ _ _ _ Ht E).
  - exact (complex_to_real_b_shape _ _ _ _ _ _ _ Ht E).
  - exact (to_complex_b_shape _ _ _ _ Ht E).
  - exact (plain_fft_shape _ _ _ _ Ht E).
  - exact (vfft_shape _ _ _ _ Ht E).
  - exact (windowed_fft_shape _ _ _ _ _ _ _ Ht E).
  - exact (plain_ifft_shape _ _ _ _ Ht E).
  - exact (vifft_shape _ _ _ _ _ _ _ _ Ht E).
  - exact (windowed_ifft_shape _ _ _ _ _ _ _ _ _ _ Ht E).
  - exact (prepare_shape _ _ _ _ _ _ _ _ Ht E).
  - exact (prepare_padded_shape _ _ _ _ _ _ _ _ Ht E).
Qed.

(** ** Which may fail *)
Lemma resize_Ok_shape v n w u : Model_Vec.resize n0 v n = (w, Ok u) -> shape_of w = with_len n (shape_of v).
Proof. unfold Model_Vec.resize. intros E. repeat match type of E with (if ?c then _ else _) = _ => destruct c | match ?x with _ => _ end = _ => destruct x end; inversion E; subst; by apply shape_eq. Qed.
Lemma to_complex_shape v w : typed v -> to_complex v = Done (w, Ok tt) -> shape_of w = doubled (shape_of v).
Proof.
  intros Ht E. unfold to_complex in E. unfold doubled. rewrite complex_shape. destruct (is_complex v) eqn:Hc; [discriminate E|].
  binv E.
  assert (Es : shape_of d = with_len (2 * len v) (shape_of v)).
  { match goal with E : zero_interleave _ _ _ = _ |- _ => unfold zero_interleave in E; binv E end; try discriminate; try congruence;
    try match goal with E : Model_Vec.resize _ _ _ = _ |- _ => apply resize_Ok_shape in E as Er end.
    - apply Nat.ltb_lt in Ec. unfold len in Ec. lia.
    - transitivity (shape_of d0); [done|]. rewrite Er. f_equal. lia. }
  assert (En : number_space d = number_space v) by exact (f_equal sh_space Es). assert (Ed : domain d = domain v) by exact (f_equal sh_domain Es).
  assert (El : len d = 2 * len v) by exact (f_equal sh_len Es). assert (Ex : delta d = delta v) by exact (f_equal sh_delta Es).
  clear Es. destruct v as [dt x dm ns vl], d as [dt' x' dm' ns' vl']. unfold typed, len in *. cbn in *. subst.
  destruct ns as [| |[]], dm as [| |[]]; try done.
Qed.

Lemma even_half n : Nat.even n = true -> 2 * (n / 2) = n.
Proof. intros He. apply Nat.even_spec in He as [k ->]. by rewrite (Nat.mul_comm 2 k), Nat.div_mul by lia; lia. Qed.
Lemma symmetric_fft_shape prepare f b v w b' : typed v -> (forall v w, prepare v = Done w -> shape_of w = shape_of v) ->
  (forall b v w b', typed v -> f b v = Done (w, b') -> shape_of w = to_frequency (shape_of v)) ->
  symmetric_fft prepare f b v = Done (w, b', Ok tt) -> shape_of w = fallible_shape Plain_sfft (shape_of v).
Proof.
  intros Ht Hp Hf E. unfold symmetric_fft in E. destruct (negb _ || _) eqn:Eg; [discriminate E|]. apply orb_false_iff in Eg as [Hd Hc].
  destruct (points v mod 2 =? 0); [discriminate E|]. binv E.
  match goal with E : zero_interleave_b _ _ _ _ = _ |- _ => apply zero_interleave_b_shape in E as Es; [|lia] end.
  match goal with E : prepare _ = _ |- _ => apply Hp in E as Ep end.
  match goal with E : unmirror _ _ = _ |- _ => unfold unmirror in E; binv E end.
  match goal with E : Model_Vec.resize _ _ _ = _ |- _ => apply resize_Ok_shape in E as Er end.
  match goal with E : f _ _ = _ |- _ => apply Hf in E as Ef end.
  - rewrite Er, Ef, Ep. rewrite <- points_shape, Ep. cbn [fallible_shape].
    assert (Eu : shape_of (vec_to_complex d) = Shape (2 * len v) (ns_to_complex (number_space v)) (domain v) (delta v)).
    { revert Es. clear. destruct d as [dt' x' dm' ns' vl'], v as [dt x dm ns vl]. unfold shape_of, with_len, len, vec_to_complex. cbn -[Nat.mul].
      intros Es. by injection Es as -> -> -> ->. }
    rewrite Eu. clear -Hc Hd Ht. destruct v as [dt x dm ns vl]. unfold typed, vdomain, is_complex in *. cbn -[Nat.div Nat.mul] in *.
    unfold to_frequency, transformed, doubled, sh_points, sh_complex, with_len, with_delta, sh_dom, as_domain, as_space, shape_of, len.
    destruct ns as [| |[]], dm as [| |[]]; try done; cbn -[Nat.div Nat.mul]; rewrite ?(Nat.mul_comm 2 vl), ?Nat.div_mul by lia; done.
  - unfold typed. assert (En : number_space x0 = ns_to_complex (number_space d)) by exact (f_equal sh_space Ep).
    assert (Ed : domain x0 = domain d) by exact (f_equal sh_domain Ep). rewrite En, Ed.
    assert (En' : number_space d = number_space v) by exact (f_equal sh_space Es). assert (Ed' : domain d = domain v) by exact (f_equal sh_domain Es).
    rewrite En', Ed'. unfold typed in Ht. by destruct (number_space v), (domain v).
Qed.
Lemma mirror_shape b v w b' : mirror b v = Done (w, b') ->
  shape_of w = match is_complex v, vdomain v with false, Time => emptied (shape_of v) | _, _ => with_len (2 * len v - 2) (shape_of v) end.
Proof.
  intros E. unfold mirror in E.
  destruct (vdomain v) eqn:Hd, (is_complex v) eqn:Hc; cbn [negb andb ddomain_eqb] in E; binv E; try (by apply shape_eq);
    (match goal with E : usub (2 * _) 2 = _ |- _ => unfold usub in E; binv E end; by apply shape_eq).
Qed.
Lemma pure_b_shape s sched b op c v w b' : pure_complex_to_real_operation n0 s sched b op c v = Done (w, b') -> shape_of w = with_len (len v / 2) (shape_of v).
Proof. unfold pure_complex_to_real_operation. intros E. binv E; deep; by apply shape_eq. Qed.
Lemma plain_sifft_shape s sched b v w b' : typed v -> plain_sifft s sched b v = Done (w, b', Ok tt) -> shape_of w = fallible_shape Plain_sifft (shape_of v).
Proof.
  intros Ht E. unfold plain_sifft in E. cbv zeta in E. destruct (negb _ || _) eqn:Eg; [discriminate E|]. apply orb_false_iff in Eg as [Hd Hc].
  apply negb_false_iff in Hc. binv E; [discriminate|]. match goal with E : mirror _ _ = _ |- _ => apply mirror_shape in E as Em end.
  match goal with E : run_fft _ _ _ = _ |- _ => apply run_fft_shape in E as Ef end.
  match goal with E : pure_complex_to_real_operation _ _ _ _ _ _ _ = _ |- _ => apply pure_b_shape in E as Er end.
  cbn [fallible_shape] in *. rewrite rededicate_shape, Er. rewrite Hc in Em. cbv zeta.
  change (len (vec_to_freq d0)) with (len d0). revert Em Ef. clear -Hc Hd Ht. intros Em Ef.
  assert (H1' : len d0 = 2 * len v - 2) by (rewrite (f_equal sh_len Ef : len d0 = len d); exact (f_equal sh_len Em)).
  assert (H2' : number_space d0 = number_space v) by (rewrite (f_equal sh_space Ef : number_space d0 = number_space d); exact (f_equal sh_space Em)).
  assert (H3' : domain d0 = domain v) by (rewrite (f_equal sh_domain Ef : domain d0 = domain d); exact (f_equal sh_domain Em)).
  assert (Ev : (2 * len v - 2) / 2 = len v - 1) by (replace (2 * len v - 2) with ((len v - 1) * 2) by lia; by rewrite Nat.div_mul by lia).
  assert (H4' : delta d0 = (nofnat (len v - 1) * delta v)%num).
  { rewrite (f_equal sh_delta Ef : delta d0 = _). by rewrite (f_equal sh_delta Em : delta d = delta v), (f_equal sh_len Em : len d = 2 * len v - 2), Ev. }
  assert (Ed : shape_of (vec_to_freq d0) = Shape (2 * len v - 2) (number_space v) (dm_to_freq (domain v)) (nofnat (len v - 1) * delta v)%num).
  { unfold shape_of, vec_to_freq. cbn [set_domain number_space domain delta]. change (len (set_domain d0 (dm_to_freq (domain d0)))) with (len d0). by rewrite H1', H2', H3', H4'. }
  rewrite Ed, H1', Ev. clear Em Ef H1' H2' H3' H4' Ed Ev. unfold typed, vdomain, is_complex, real_time_result, gen_or in *.
  rewrite (shape_destruct v). cbn [sh_len sh_space sh_domain sh_delta]. generalize (len v - 1) (delta v) (2 * len v - 2). intros n x m.
  unfold typed_as, as_space, as_domain, with_delta, with_len, sh_complex, sh_dom.
  destruct (number_space v) as [| |[]], (domain v) as [| |[]]; try discriminate; try contradiction; reflexivity.
Qed.
Lemma sifft_shape r addr s sched sched' b v w b' : typed v -> sifft r addr s sched sched' b v = Done (w, b', Ok tt) -> shape_of w = fallible_shape Plain_sifft (shape_of v).
Proof.
  intros Ht E. unfold sifft in E. binv E. match goal with E : ifft_shift _ = _ |- _ => apply swap_shape in E as Ew end.
  match goal with E : scale_complex _ _ _ _ _ _ = _ |- _ => unfold scale_complex in E; destruct (is_complex v) eqn:Hc; cbn [negb] in E end.
  - match goal with E : simd_complex_operation _ _ _ _ _ _ _ _ = _ |- _ => apply simd_complex_operation_frame in E as Es; apply frame_shape in Es end.
    rewrite Es in Ew. apply plain_sifft_shape in E; [by rewrite E, Ew|by apply (shape_typed v)].
  - match goal with E : Done _ = Done _ |- _ => injection E as <- end. exfalso.
    assert (Hx : is_complex x0 = false) by (rewrite (f_equal sh_complex Ew : is_complex x0 = is_complex (mark_vector_as_invalid v)); exact Hc).
    unfold plain_sifft in E. rewrite Hx in E. cbn [negb] in E. rewrite orb_true_r in E. discriminate E.
Qed.
Lemma fallible_shape_right e op i b v w b' : typed v -> vec_fallible e op i b v = Done (w, b', Ok tt) -> shape_of w = fallible_shape op (shape_of v).
Proof.
  intros Ht E. destruct op; cbn [vec_fallible] in E.
  - binv E. match goal with E : to_complex _ = _ |- _ => exact (to_complex_shape _ _ Ht E) end.
  - refine (symmetric_fft_shape _ _ _ _ _ _ Ht _ _ E); [by intros ? ? [= ->]|intros ? ? ? ?; apply plain_fft_shape].
  - refine (symmetric_fft_shape _ _ _ _ _ _ Ht _ _ E); [by intros ? ? [= ->]|intros ? ? ? ?; apply vfft_shape].
  - refine (symmetric_fft_shape _ _ _ _ _ _ Ht _ _ E); [intros ? ? Ew; apply apply_window_frame in Ew; by apply frame_shape|intros ? ? ? ?; apply vfft_shape].
  - exact (plain_sifft_shape _ _ _ _ _ _ Ht E).
  - exact (sifft_shape _ _ _ _ _ _ _ _ _ Ht E).
  - unfold windowed_sifft in E. binv E; [|discriminate]. match goal with E : sifft _ _ _ _ _ _ _ = Done (_, _, Ok ?u) |- _ => destruct u; apply sifft_shape in E as Es; [|done] end.
    match goal with E : unapply_window _ _ _ _ = _ |- _ => apply unapply_window_frame in E as Ew end. by rewrite (frame_shape _ _ Ew).
Qed.

(** ** Convolution and interpolation *)
Lemma into_buffer_shape {P} (convert : list A -> run (list P)) back b v f w b' : into_buffer convert back b v f = Done (w, b') -> shape_of w = shape_of v.
Proof. unfold into_buffer. intros E. binv E. by apply shape_eq. Qed.
Lemma convolve_signal_shape r addr s sched b v o w b' res : convolve_signal r addr s sched b v o = Done (w, b', res) -> shape_of w = shape_of v.
Proof.
  unfold convolve_signal. intros E. binv E; try done.
  - match goal with E : convolve_signal_simd _ _ _ _ _ _ _ = _ |- _ => unfold convolve_signal_simd, convolve_signal_simd_impl in E; binv E end;
    match goal with E : into_buffer _ _ _ _ _ = _ |- _ => by apply into_buffer_shape in E end.
  - match goal with E : overlap_discard _ _ _ _ = _ |- _ => unfold overlap_discard in E; binv E end; by apply shape_eq.
  - match goal with E : convolve_signal_scalar _ _ _ _ _ = _ |- _ => unfold convolve_signal_scalar in E; binv E end;
    match goal with E : into_buffer _ _ _ _ _ = _ |- _ => by apply into_buffer_shape in E end.
Qed.
Lemma convolve_real_shape rnd tou fits f ratio n r addr s sched b v w b' :
  convolve_real_response rnd tou fits f ratio n r addr s sched b v = Done (w, b') -> shape_of w = if ddomain_eqb (vdomain v) Time then shape_of v else emptied (shape_of v).
Proof.
  unfold convolve_real_response, convolve_function_complex, convolve_function_real. intros E. destruct (ddomain_eqb (vdomain v) Time); cbn [negb] in E; [|by injection E as <- <-].
  binv E; try (match goal with E : convolve_signal _ _ _ _ _ _ _ = _ |- _ => by apply convolve_signal_shape in E end); by apply into_buffer_shape in E.
Qed.
Lemma convolve_complex_shape rnd tou fits f ratio n r addr s sched b v w b' :
  convolve_complex_response rnd tou fits f ratio n r addr s sched b v = Done (w, b') ->
  shape_of w = if is_complex v && ddomain_eqb (vdomain v) Time then shape_of v else emptied (shape_of v).
Proof.
  unfold convolve_complex_response, convolve_function_complex. intros E.
  destruct (is_complex v), (ddomain_eqb (vdomain v) Time); cbn [negb andb orb] in *; try (by injection E as <- <-).
  binv E; try (match goal with E : convolve_signal _ _ _ _ _ _ _ = _ |- _ => by apply convolve_signal_shape in E end); by apply into_buffer_shape in E.
Qed.
Lemma interpolated_len_spec n f m : interpolated_len n f = Done m -> m = interpolated (n - 1) f + 1.
Proof.
  unfold interpolated_len, interpolated. intros E. binv E. match goal with E : usub _ _ = _ |- _ => unfold usub in E; binv E end.
  match goal with E : unwrapped ?x = _ |- _ => destruct x; [by injection E as <-|discriminate E] end.
Qed.
Lemma interpolate_lin_shape b v f d w b' : interpolate_lin b v f d = Done (w, b') ->
  shape_of w = if is_complex v then emptied (shape_of v) else with_len (interpolated (len v - 1) f + 1) (shape_of v).
Proof.
  unfold interpolate_lin. intros E. binv E; [done|]. match goal with E : interpolated_len _ _ = _ |- _ => apply interpolated_len_spec in E as -> end. by apply shape_eq.
Qed.
Lemma interpolate_hermite_shape b v f d w b' : interpolate_hermite b v f d = Done (w, b') ->
  shape_of w = if is_complex v then emptied (shape_of v) else with_len (interpolated (len v - 1) f + 1) (shape_of v).
Proof.
  unfold interpolate_hermite. intros E. binv E; [done|]. match goal with E : interpolated_len _ _ = _ |- _ => apply interpolated_len_spec in E as -> end. by apply shape_eq.
Qed.
Lemma interpolate_simd_shape {P} (zero : P) add mul from convert back simd_mul simd_sum h k delay n nl r addr s sched b v w b' :
  interpolate_simd zero add mul from convert back simd_mul simd_sum h k delay n nl r addr s sched b v = Done (w, b') -> shape_of w = with_len nl (shape_of v).
Proof. unfold interpolate_simd. intros E. binv E. by apply shape_eq. Qed.
Lemma interpolatef_shape h f d n r addr s sched b v w b' : interpolatef h f d n r addr s sched b v = Done (w, b') ->
  shape_of w = inplace_b_shape (Interpolatef h f d n) (shape_of v).
Proof.
  unfold interpolatef. cbv zeta. intros E. cbn [inplace_b_shape]. cbv zeta. change (sh_len (shape_of v)) with (len v). unfold interpolated.
  destruct (to_usize (fround (nofnat (len v) * f)%num)) as [m|]; [|discriminate E].
  change (unwrapped (Some m)) with (Done m) in E. rewrite bind_Done in E. change (default 0 (Some m)) with m.
  assert (Em : m + m mod 2 = if Nat.even m then m else m + 1).
  { clear. pose proof (rounded_up_even m) as He. pose proof (Nat.mod_upper_bound m 2 ltac:(lia)). destruct (m mod 2) as [|[|k]]; [| |lia].
    - rewrite Nat.add_0_r in He. rewrite He. lia.
    - rewrite Nat.even_add in He. destruct (Nat.even m); [discriminate He|done]. }
  rewrite <- Em. clear Em. binv E; try (by apply interpolate_simd_shape in E).
  unfold interpolatef_scalar in E. binv E; by apply shape_eq.
Qed.

Lemma resize_b_shape b v n w b' u : resize_b n0 b v n = Done (w, b', Ok u) -> shape_of w = with_len n (shape_of v).
Proof.
  unfold resize_b. intros E. binv E; try discriminate; try (by apply shape_eq).
  - by apply resize_Ok_shape in Ep.
  - assert (Es : shape_of d = shape_of v).
    { clear -Ep. unfold Model_Vec.resize in Ep. repeat match type of Ep with (if ?c then _ else _) = _ => destruct c | match ?x with _ => _ end = _ => destruct x end; inversion Ep; subst; done. }
    apply shape_eq; [done|exact (f_equal sh_space Es)|exact (f_equal sh_domain Es)|exact (f_equal sh_delta Es)].
Qed.
Lemma halved_inplace_shape v w : pure_complex_to_real_operation_inplace fst v = Done w -> shape_of w = with_len (len v / 2) (shape_of v).
Proof. unfold pure_complex_to_real_operation_inplace. intros E. binv E. by apply shape_eq. Qed.
Lemma interpolate_shape r addr s sc sch b v h n d w b' : interpolate r addr s sc sch b v h n d = Done (w, b', Ok tt) ->
  shape_of w = resampling_shape (Interpolate h n d) (shape_of v).
Proof.
  unfold interpolate. intros E. destruct (match h with Some _ => _ | None => _ end); [discriminate E|]. cbv zeta in E.
  apply bind_Done_inv in E as ([u c] & E0 & E).
  assert (Hu : exists m, shape_of u = with_len m (shape_of v)).
  { destruct (is_complex v) eqn:Hc; cbn [negb] in E0; [injection E0 as <- <-; by exists (len v)|].
    apply zero_interleave_b_shape in E0; [eauto|lia]. }
  destruct Hu as [m Hu]. clear E0.
  apply bind_Done_inv in E as ([[x c'] rs] & E0 & E). destruct rs as [[]|er]; [|discriminate E]. apply resize_b_shape in E0. rewrite Hu in E0.
  apply bind_Done_inv in E as (cx & _ & E). destruct (Model_Vec.resize n0 cx _) as [cx1 [[]|er]]; [|discriminate E].
  apply bind_Done_inv in E as ([cx2 ?] & _ & E). apply bind_Done_inv in E as (cx3 & _ & E). apply bind_Done_inv in E as ([cx4 rs] & _ & E).
  destruct rs as [[]|er]; [|apply bind_Done_inv in E as (l & El & E); discriminate E].
  apply bind_Done_inv in E as ([cx5 ?] & _ & E). apply bind_Done_inv in E as (l & El & E).
  destruct (Model_Vec.resize n0 (set_elems x l) (2 * n)) as [w2 [[]|er]] eqn:Er; [|discriminate E]. apply resize_Ok_shape in Er.
  assert (Ex : shape_of (set_elems x l) = shape_of x) by done. rewrite Ex, E0 in Er.
  apply bind_Done_inv in E as (w3 & E3 & E). apply simd_real_operation_frame in E3. apply frame_shape in E3. rewrite Er in E3.
  set (w4 := set_delta w3 _) in E. assert (E4 : shape_of w4 = with_delta (delta v / (nofnat n / nofnat (points v)))%num (with_len (2 * n) (shape_of v))).
  { unfold w4. apply shape_eq; try done; cbn.
    - exact (f_equal sh_len E3).
    - exact (f_equal sh_space E3).
    - exact (f_equal sh_domain E3). }
  clearbody w4. cbn [resampling_shape]. rewrite points_shape, complex_shape. change (sh_delta (shape_of v)) with (delta v).
  destruct (is_complex v); cbn [negb] in E; [by injection E as <- <-|].
  apply bind_Done_inv in E as (w5 & E5 & E). injection E as <- <-. apply halved_inplace_shape in E5. rewrite E5, E4.
  rewrite (f_equal sh_len E4 : len w4 = 2 * n). rewrite (Nat.mul_comm 2 n), Nat.div_mul by lia. done.
Qed.
Lemma interpft_shape r addr s sc sch b v n w b' : interpft r addr s sc sch b v n = Done (w, b') -> shape_of w = inplace_b_shape (Interpft n) (shape_of v).
Proof.
  unfold interpft. intros E. binv E. match goal with E : interpolate _ _ _ _ _ _ _ _ _ _ = Done (_, _, Ok ?u) |- _ => destruct u; by apply interpolate_shape in E end.
Qed.
Lemma interpolatei_shape r addr s sc sch b v h k w b' : interpolatei r addr s sc sch b v h k = Done (w, b', Ok tt) ->
  shape_of w = resampling_shape (Interpolatei h k) (shape_of v).
Proof.
  unfold interpolatei. cbn [resampling_shape]. intros E. destruct (k <=? 1) eqn:Hk; [by injection E as <- <-|]. apply Nat.leb_gt in Hk.
  destruct (negb (r_symmetric h) && _); [discriminate E|]. cbv zeta in E.
  apply bind_Done_inv in E as ([x c] & E0 & E).
  assert (Hx : shape_of x = with_len (if is_complex v then k * len v else k * 2 * len v) (shape_of v)).
  { destruct (is_complex v) eqn:Hc; cbn [negb] in E0; apply zero_interleave_b_shape in E0; done || lia. }
  clear E0.
  apply bind_Done_inv in E as (cx & _ & E). apply bind_Done_inv in E as ([cx2 ?] & _ & E). apply bind_Done_inv in E as (cx3 & _ & E).
  apply bind_Done_inv in E as ([cx5 ?] & _ & E). apply bind_Done_inv in E as (l & El & E).
  apply bind_Done_inv in E as (w3 & E3 & E). apply simd_real_operation_frame in E3. apply frame_shape in E3.
  assert (Ex : shape_of (set_elems x l) = shape_of x) by done. rewrite Ex, Hx in E3. change (sh_len (shape_of v)) with (len v).
  destruct (is_complex v); cbn [negb] in E; [by injection E as <- <-|].
  apply bind_Done_inv in E as (w5 & E5 & E). injection E as <- <-. apply halved_inplace_shape in E5. rewrite E5, E3.
  rewrite (f_equal sh_len E3 : len w3 = k * 2 * len v). replace (k * 2 * len v) with (k * len v * 2) by lia. by rewrite Nat.div_mul by lia.
Qed.
Lemma inplace_b_shape_right e fits op i b v w b' : vec_inplace_b e fits op i b v = Done (w, b') -> shape_of w = inplace_b_shape op (shape_of v).
Proof.
  intros E. destruct op; cbn [vec_inplace_b] in E.
  - exact (mirror_shape _ _ _ _ E).
  - exact (interpolate_hermite_shape _ _ _ _ _ _ E).
  - exact (interpolate_lin_shape _ _ _ _ _ _ E).
  - apply convolve_real_shape in E. rewrite E. cbn [inplace_b_shape inplace_b_needs]. unfold meets. cbn. rewrite dom_shape. by destruct (vdomain v).
  - apply convolve_complex_shape in E. rewrite E. cbn [inplace_b_shape inplace_b_needs]. unfold meets. cbn. rewrite dom_shape, complex_shape. by destruct (is_complex v), (vdomain v).
  - exact (interpolatef_shape _ _ _ _ _ _ _ _ _ _ _ _ E).
  - exact (interpft_shape _ _ _ _ _ _ _ _ _ _ E).
Qed.
Lemma resampling_shape_right e op i b v w b' : vec_resample e op i b v = Done (w, b', Ok tt) -> shape_of w = resampling_shape op (shape_of v).
Proof.
  intros E. destruct op; cbn [vec_resample] in E; [exact (interpolatei_shape _ _ _ _ _ _ _ _ _ _ _ E)|exact (interpolate_shape _ _ _ _ _ _ _ _ _ _ _ _ E)].
Qed.
Lemma binary_shape_right e op i v o w res : vec_binary e op i v o = Done (w, res) -> shape_of w = shape_of v.
Proof. intros E. apply vec_binary_frame in E. by apply frame_shape. Qed.
End shapes.
