(** Calls on vectors of the wrong number space or domain *)
From Verif Require Export Spec_Invalid Proof_History.
From Verif Require Import Proof_Base Proof_Vec Proof_FftMore Proof_Sfft Proof_CorrV Proof_Complex Proof_ComplexMath Proof_ComplexSet Proof_Chunk Proof_Simd Proof_SimdOps Proof_Elem Proof_ElemOps.

Section invalid.
Context {A : Type} `{Num A} `{Flt A} `{Rem A} `{Trig A} `{Math A} `{F : Fft A} `{RA : Rounding A}.
Implicit Types v : dvec A.

Lemma invalid_poisoned v : poisoned (mark_vector_as_invalid v). Proof. done. Qed.
Lemma frame_poisoned v v' : frame v v' -> poisoned v -> poisoned v'.
Proof. intros (E1 & _ & _ & _ & E5) [P1 P2]. split; unfold len in *; congruence. Qed.
Lemma rededicate_poisoned t v : poisoned v -> poisoned (rededicate_from_force t v). Proof. by destruct t. Qed.
Lemma transform_poisoned t v : poisoned (invalid_transform t v). Proof. apply rededicate_poisoned. done. Qed.
Lemma lacks_space q v c d : q = Req (Some c) (Some d) -> lacks q v -> is_complex v = negb c \/ vdomain v <> d.
Proof. intros -> [(x & [= <-] & Hx)|(x & [= <-] & Hx)]; [left; by destruct (is_complex v), c|by right]. Qed.
Lemma lacks_complex v : lacks a_complex v -> is_complex v = false.
Proof. intros [(x & [= <-] & Hx)|(x & [=] & _)]. by destruct (is_complex v). Qed.
Lemma lacks_real v : lacks a_real v -> is_complex v = true.
Proof. intros [(x & [= <-] & Hx)|(x & [=] & _)]. by destruct (is_complex v). Qed.
Lemma lacks_time v : lacks in_time v -> vdomain v <> Time.
Proof. intros [(x & [=] & _)|(x & [= <-] & Hx)]. done. Qed.
Lemma lacks_freq v : lacks in_frequency v -> vdomain v <> Frequency.
Proof. intros [(x & [=] & _)|(x & [= <-] & Hx)]. done. Qed.
Lemma lacks_anything v : ~ lacks anything v.
Proof. intros [(x & [=] & _)|(x & [=] & _)]. Qed.
Lemma not_time v : vdomain v <> Time -> ddomain_eqb (vdomain v) Time = false. Proof. by destruct (vdomain v). Qed.
Lemma not_freq v : vdomain v <> Frequency -> ddomain_eqb (vdomain v) Frequency = false. Proof. by destruct (vdomain v). Qed.
Lemma check_poisoned v : is_complex v = false \/ poisoned v -> poisoned (check_complex v).
Proof. unfold check_complex. destruct (is_complex v); cbn [negb]; [|done]. by intros [?|?]. Qed.
Lemma vconj_poisoned r addr s sched v v' : vconj r addr s sched v = Done v' -> is_complex v = false \/ poisoned v -> poisoned v'.
Proof. unfold vconj. intros E Hv. apply simd_complex_operation_frame in E. by apply (frame_poisoned _ _ E), check_poisoned. Qed.
Lemma exponential_poisoned s sched a b v v' : multiply_complex_exponential s sched a b v = Done v' -> is_complex v = false -> poisoned v'.
Proof.
  unfold multiply_complex_exponential. intros E Hv. binv E. eapply frame_poisoned; [|by apply check_poisoned; left]. by spliced.
Qed.

Lemma inplace_rejects e op i v v' : vec_inplace e op i v = Done v' -> lacks (inplace_needs op) v -> ~ unaware op -> poisoned v'.
Proof.
  intros E Hl Hu. destruct op; cbn [inplace_needs unaware vec_inplace] in *; try (by destruct (lacks_anything v)); try by destruct Hu.
  - apply lacks_complex in Hl. unfold scale_complex in E. rewrite Hl in E. by injection E as <-.
  - apply lacks_complex in Hl. unfold offset_complex in E. rewrite Hl in E. by injection E as <-.
  - apply lacks_real in Hl. unfold map_inplace in E. rewrite Hl in E. by injection E as <-.
  - apply lacks_complex in Hl. unfold map_inplace_complex in E. rewrite Hl in E. by injection E as <-.
  - apply lacks_real in Hl. unfold vabs in E. rewrite Hl in E. by injection E as <-.
  - apply lacks_real in Hl. unfold wrap in E. rewrite Hl in E. by injection E as <-.
  - apply lacks_real in Hl. unfold unwrap in E. rewrite Hl in E. by injection E as <-.
  - apply lacks_real in Hl. unfold vapprox in E. rewrite Hl in E. by injection E as <-.
  - apply lacks_complex in Hl. by apply exponential_poisoned in E.
  - apply lacks_complex in Hl. apply vconj_poisoned in E; [done|by left].
  - apply lacks_freq in Hl. unfold multiply_real_response in E. rewrite (not_freq _ Hl) in E. by injection E as <-.
  - apply (lacks_space _ v true Frequency eq_refl) in Hl. unfold multiply_complex_response in E.
    destruct Hl as [Hl|Hl]; [rewrite Hl in E|rewrite (not_freq _ Hl), orb_true_r in E]; by injection E as <-.
Qed.
Lemma conversion_rejects op v v' : vec_conversion op v = Done v' -> lacks (conversion_needs op) v -> poisoned v'.
Proof.
  intros E Hl. destruct op; cbn [conversion_needs vec_conversion] in *; try (by destruct (lacks_anything v)); apply lacks_complex in Hl;
    unfold magnitude, magnitude_squared, to_real, to_imag, phase, complex_to_real in E; rewrite Hl in E; injection E as <-; by apply rededicate_poisoned.
Qed.
Lemma plain_fft_rejects b v v' b' : plain_fft b v = Done (v', b') -> vdomain v <> Time -> poisoned v'.
Proof. unfold plain_fft. intros E Hd. rewrite (not_time _ Hd) in E. injection E as <- <-. apply transform_poisoned. Qed.
Lemma plain_ifft_rejects b v v' b' : plain_ifft b v = Done (v', b') -> vdomain v <> Frequency -> poisoned v'.
Proof. unfold plain_ifft. intros E Hd. rewrite (not_freq _ Hd) in E. injection E as <- <-. apply transform_poisoned. Qed.
Lemma frame_domain v v' : frame v v' -> vdomain v' = vdomain v.
Proof. intros (_ & _ & _ & E & _). unfold vdomain. by rewrite E. Qed.
Lemma frame_space v v' : frame v v' -> is_complex v' = is_complex v.
Proof. intros (_ & _ & E & _). unfold is_complex. by rewrite E. Qed.
Lemma vifft_rejects r addr s sched b v v' b' : vifft r addr s sched b v = Done (v', b') -> vdomain v <> Frequency -> poisoned v'.
Proof.
  unfold vifft. intros E Hd. binv E. apply simd_real_operation_frame in E0 as F0. apply swap_halves_priv_frame in E1 as F1.
  pose proof (frame_trans _ _ _ F0 F1) as Fr. apply plain_ifft_rejects in E; [done|]. by rewrite (frame_domain _ _ Fr).
Qed.
Lemma prepare_rejects r addr s sched b v v' b' : prepare_argument r addr s sched b v = Done (v', b') -> vdomain v <> Time -> poisoned v'.
Proof.
  unfold prepare_argument. intros E Hd. binv E. match goal with E : plain_fft _ _ = _ |- _ => apply plain_fft_rejects in E; [|done] end.
  match goal with E : vconj _ _ _ _ _ = _ |- _ => apply vconj_poisoned in E; [done|by right] end.
Qed.
Lemma buffered_rejects e op i b v v' b' : vec_buffered e op i b v = Done (v', b') -> lacks (buffered_needs op) v ->
  ~ (lenient op /\ r_domain (buffered_needs op) = Some (vdomain v)) -> poisoned v'.
Proof.
  intros E Hl Hn. destruct op; cbn [buffered_needs vec_buffered lenient r_domain a_complex_in_frequency a_complex_in_time] in *.
  - apply lacks_complex in Hl. unfold magnitude_b, complex_to_real_simd_b in E. rewrite Hl in E. injection E as <- <-. by apply rededicate_poisoned.
  - apply lacks_complex in Hl. unfold magnitude_squared_b, complex_to_real_simd_b in E. rewrite Hl in E. injection E as <- <-. by apply rededicate_poisoned.
  - apply lacks_complex in Hl. unfold to_real_b, complex_to_real_b in E. rewrite Hl in E. injection E as <- <-. by apply rededicate_poisoned.
  - apply lacks_complex in Hl. unfold to_imag_b, complex_to_real_b in E. rewrite Hl in E. injection E as <- <-. by apply rededicate_poisoned.
  - apply lacks_complex in Hl. unfold phase_b, complex_to_real_b in E. rewrite Hl in E. injection E as <- <-. by apply rededicate_poisoned.
  - apply lacks_real in Hl. unfold to_complex_b in E. rewrite Hl in E. injection E as <- <-. by apply rededicate_poisoned.
  - apply lacks_time in Hl. by apply plain_fft_rejects in E.
  - apply lacks_time in Hl. unfold vfft in E. binv E. match goal with E : plain_fft _ _ = _ |- _ => apply plain_fft_rejects in E; [|done] end.
    match goal with E : fft_shift _ = _ |- _ => apply swap_halves_priv_frame in E as Hf end. by apply (frame_poisoned _ _ Hf).
  - apply lacks_time in Hl. unfold windowed_fft in E. binv E. match goal with E : apply_window _ _ _ _ = _ |- _ => apply apply_window_frame in E as Fr end.
    match goal with E : plain_fft _ _ = _ |- _ => apply plain_fft_rejects in E; [|by rewrite (frame_domain _ _ Fr)] end.
    match goal with E : fft_shift _ = _ |- _ => apply swap_halves_priv_frame in E as Hf end. by apply (frame_poisoned _ _ Hf).
  - assert (Hd : vdomain v <> Frequency) by (intros K; apply Hn; rewrite K; done). by apply plain_ifft_rejects in E.
  - assert (Hd : vdomain v <> Frequency) by (intros K; apply Hn; rewrite K; done). by apply vifft_rejects in E.
  - assert (Hd : vdomain v <> Frequency) by (intros K; apply Hn; rewrite K; done). unfold windowed_ifft in E. binv E.
    match goal with E : vifft _ _ _ _ _ _ = _ |- _ => apply vifft_rejects in E; [|done] end.
    match goal with E : unapply_window _ _ _ _ = _ |- _ => apply unapply_window_frame in E as Hf end. by apply (frame_poisoned _ _ Hf).
  - assert (Hd : vdomain v <> Time) by (intros K; apply Hn; rewrite K; done). by apply prepare_rejects in E.
  - assert (Hd : vdomain v <> Time) by (intros K; apply Hn; rewrite K; done). unfold prepare_argument_padded in E. binv E.
    match goal with E : zero_pad_b _ _ _ _ _ = _ |- _ => apply zero_pad_b_meta in E as [_ Ed] end. apply prepare_rejects in E; [done|].
    unfold vdomain in *. by rewrite Ed.
Qed.
Lemma symmetric_fft_rejects prepare f b v v' b' res : symmetric_fft prepare f b v = Done (v', b', res) -> lacks a_real_in_time v -> poisoned v' /\ exists er, res = Err er.
Proof.
  intros E Hl. apply (lacks_space _ v false Time eq_refl) in Hl. unfold symmetric_fft in E.
  assert (Et : negb (ddomain_eqb (vdomain v) Time) || is_complex v = true) by (destruct Hl as [Hl|Hl]; [rewrite Hl; apply orb_true_r|by rewrite (not_time _ Hl)]).
  rewrite Et in E. injection E as <- <- <-. split; [apply transform_poisoned|eauto].
Qed.
Lemma plain_sifft_rejects s sched b v v' b' res : plain_sifft s sched b v = Done (v', b', res) -> lacks a_complex_in_frequency v -> poisoned v' /\ exists er, res = Err er.
Proof.
  intros E Hl. apply (lacks_space _ v true Frequency eq_refl) in Hl. unfold plain_sifft in E. cbv zeta in E.
  assert (Et : negb (ddomain_eqb (vdomain v) Frequency) || negb (is_complex v) = true) by (destruct Hl as [Hl|Hl]; [rewrite Hl; apply orb_true_r|by rewrite (not_freq _ Hl)]).
  rewrite Et in E. injection E as <- <- <-. split; [apply transform_poisoned|eauto].
Qed.
Lemma shrinks_lacks q v v' : number_space v' = number_space v -> domain v' = domain v -> lacks q v -> lacks q v'.
Proof. intros E1 E2. unfold lacks, is_complex, vdomain. by rewrite E1, E2. Qed.
Lemma sifft_rejects r addr s sched sched' b v v' b' res : sifft r addr s sched sched' b v = Done (v', b', res) -> lacks a_complex_in_frequency v -> poisoned v' /\ exists er, res = Err er.
Proof.
  unfold sifft. intros E Hl. binv E.
  assert (Hs : shrinks v x).
  { match goal with E : scale_complex _ _ _ _ _ _ = _ |- _ => unfold scale_complex in E; binv E end; [apply invalid_shrinks|].
    apply frame_shrinks. by eapply simd_complex_operation_frame. }
  match goal with E : ifft_shift _ = _ |- _ => apply swap_halves_priv_frame in E as Hf end.
  pose proof (shrinks_trans _ _ _ Hs (frame_shrinks _ _ Hf)) as (S1 & S2 & S3 & S4 & S5).
  apply plain_sifft_rejects in E; [done|]. by apply (shrinks_lacks _ v).
Qed.
Lemma fallible_rejects e op i b v v' b' res : vec_fallible e op i b v = Done (v', b', res) -> lacks (fallible_needs op) v -> op <> To_complex ->
  poisoned v' /\ exists er, res = Err er.
Proof.
  intros E Hl Hn. destruct op; cbn [vec_fallible fallible_needs] in *; [done|by apply symmetric_fft_rejects in E..|by apply plain_sifft_rejects in E|by apply sifft_rejects in E|].
  unfold windowed_sifft in E. binv E; match goal with E : sifft _ _ _ _ _ _ _ = _ |- _ => apply sifft_rejects in E as [P [er Er]]; [|done] end; [discriminate Er|].
  split; [done|]. eauto.
Qed.
Lemma inplace_b_rejects e fits op i b v v' b' : vec_inplace_b e fits op i b v = Done (v', b') -> lacks (inplace_b_needs op) v ->
  ~ (op = Mirror /\ (vdomain v = Frequency \/ is_complex v = true)) -> poisoned v'.
Proof.
  intros E Hl Hn. destruct op; cbn [vec_inplace_b inplace_b_needs] in *.
  - unfold mirror in E. assert (Ht : negb (ddomain_eqb (vdomain v) Frequency) && negb (is_complex v) = true).
    { destruct (vdomain v), (is_complex v); try done; exfalso; apply Hn; auto. }
    rewrite Ht in E. by injection E as <- <-.
  - apply lacks_real in Hl. unfold interpolate_hermite in E. binv E; [done|congruence].
  - apply lacks_real in Hl. unfold interpolate_lin in E. binv E; [done|congruence].
  - apply lacks_time in Hl. unfold convolve_real_response in E. rewrite (not_time _ Hl) in E. by injection E as <- <-.
  - apply (lacks_space _ v true Time eq_refl) in Hl. unfold convolve_complex_response in E.
    destruct Hl as [Hl|Hl]; [rewrite Hl in E; by injection E as <- <-|]. rewrite (not_time _ Hl) in E. destruct (negb (is_complex v)); by injection E as <- <-.
  - by destruct (lacks_anything v).
  - by destruct (lacks_anything v).
Qed.
Lemma correlate_rejects r addr s sched sched' b v o v' b' res : correlate r addr s sched sched' b v o = Done (v', b', res) -> lacks a_complex_in_time v ->
  poisoned v' /\ exists er, res = Err er.
Proof.
  intros E Hl. apply (lacks_space _ v true Time eq_refl) in Hl. destruct (correlate_wrong r addr s sched sched' b v o) as (w & Ew & P).
  - destruct Hl; tauto.
  - rewrite Ew in E. injection E as <- <- <-. eauto.
Qed.
Lemma call_rejects e fits c v w : perform e fits c v = Done w -> lacks (call_needs c) v -> ~ unchecked c v -> poisoned w.
Proof.
  intros E Hl Hn. destruct c; cbn [perform call_needs unchecked] in *; try (by destruct (lacks_anything v)); try (by destruct Hn).
  - by apply inplace_rejects in E.
  - by apply conversion_rejects in E.
  - binv E. match goal with E : vec_buffered _ _ _ _ _ = _ |- _ => by apply buffered_rejects in E end.
  - binv E. match goal with E : vec_fallible _ _ _ _ _ = _ |- _ => apply fallible_rejects in E; [tauto|done|] end. intros ->. by apply Hn.
  - binv E. match goal with E : vec_inplace_b _ _ _ _ _ _ = _ |- _ => apply inplace_b_rejects in E; [done|done|] end. intros [-> K]. by apply Hn.
  - binv E. match goal with E : correlate _ _ _ _ _ _ _ _ = _ |- _ => apply correlate_rejects in E; tauto end.
Qed.

(** ** They don't panic *)
Lemma inplace_rejecting e op v : reg_ok (e_reg e) -> elem_aligned (e_reg e) (e_addr e 0) -> (forall x : A, x * n1 = x /\ x * nopp n1 = nopp x)%num ->
  lacks (inplace_needs op) v -> ~ unaware op -> exists v', vec_inplace e op 0 v = Done v' /\ poisoned v'.
Proof.
  intros Hr Ha Hx Hl Hu. assert (Hex : exists v', vec_inplace e op 0 v = Done v'); [|destruct Hex as [v' E]; exists v'; split; [done|by apply inplace_rejects in E]].
  destruct op; cbn [inplace_needs unaware vec_inplace] in *; try (by destruct (lacks_anything v)); try by destruct Hu.
  - apply lacks_complex in Hl. unfold scale_complex. rewrite Hl. by eexists.
  - apply lacks_complex in Hl. unfold offset_complex. rewrite Hl. by eexists.
  - apply lacks_real in Hl. unfold map_inplace. rewrite Hl. by eexists.
  - apply lacks_complex in Hl. unfold map_inplace_complex. rewrite Hl. by eexists.
  - apply lacks_real in Hl. unfold vabs. rewrite Hl. by eexists.
  - apply lacks_real in Hl. unfold wrap. rewrite Hl. by eexists.
  - apply lacks_real in Hl. unfold unwrap. rewrite Hl. by eexists.
  - apply lacks_real in Hl. unfold vapprox. rewrite Hl. by eexists.
  - apply lacks_complex in Hl. destruct (exponential_on_real (e_set e) (e_sched e 0 0) a b v Hl) as (v' & E & _). eauto.
  - apply lacks_complex in Hl. destruct (conj_on_real (e_reg e) (e_addr e 0) (e_set e) (e_sched e 0 0) v Hr Ha Hl) as (v' & E & _); [apply Hx..|eauto].
  - apply lacks_freq in Hl. unfold multiply_real_response. rewrite (not_freq _ Hl). by eexists.
  - apply (lacks_space _ v true Frequency eq_refl) in Hl. unfold multiply_complex_response.
    destruct Hl as [Hl|Hl]; [rewrite Hl|rewrite (not_freq _ Hl), orb_true_r]; by eexists.
Qed.
Lemma conversion_rejecting op v : lacks (conversion_needs op) v -> exists v', vec_conversion op v = Done v' /\ poisoned v'.
Proof.
  intros Hl. assert (Hex : exists v', vec_conversion op v = Done v'); [|destruct Hex as [v' E]; exists v'; split; [done|by apply conversion_rejects in E]].
  destruct op; cbn [conversion_needs vec_conversion] in *; try (by destruct (lacks_anything v)); apply lacks_complex in Hl;
    unfold magnitude, magnitude_squared, to_real, to_imag, phase, complex_to_real; rewrite Hl; by eexists.
Qed.
(** the buffered ones which do nothing before they look *)
Definition looks_first (op : buffered A) : Prop := match op with IFFT | Windowed_fft _ | Windowed_ifft _ | Prepare_argument | Prepare_argument_padded => False | _ => True end.
Lemma buffered_rejecting e op b v : looks_first op -> lacks (buffered_needs op) v -> ~ (lenient op /\ r_domain (buffered_needs op) = Some (vdomain v)) ->
  exists v', vec_buffered e op 0 b v = Done (v', b) /\ poisoned v'.
Proof.
  intros Hf Hl Hn. assert (Hex : exists v', vec_buffered e op 0 b v = Done (v', b)); [|destruct Hex as [v' E]; exists v'; split; [done|by apply buffered_rejects in E]].
  destruct op; cbn [buffered_needs vec_buffered looks_first lenient r_domain a_complex_in_frequency] in *; try done.
  1-5: apply lacks_complex in Hl; unfold magnitude_b, magnitude_squared_b, to_real_b, to_imag_b, phase_b, complex_to_real_simd_b, complex_to_real_b; rewrite Hl; by eexists.
  - apply lacks_real in Hl. unfold to_complex_b. rewrite Hl. by eexists.
  - apply lacks_time in Hl. unfold plain_fft. rewrite (not_time _ Hl). by eexists.
  - apply lacks_time in Hl. unfold vfft, plain_fft. rewrite (not_time _ Hl). cbn [negb]. rewrite bind_Done. cbv beta iota.
    rewrite (proj1 (shift_empty _ (proj1 (transform_poisoned _ v)))). rewrite bind_Done. by eexists.
  - assert (Hd : vdomain v <> Frequency) by (intros K; apply Hn; rewrite K; done). unfold plain_ifft. rewrite (not_freq _ Hd). by eexists.
Qed.
Lemma plain_sfft_rejecting b v : lacks a_real_in_time v -> typed v -> exists v', plain_sfft b v = Done (v', b, Err InputMustBeInTimeDomain) /\ poisoned v'.
Proof.
  intros Hl Ht. apply (lacks_space _ v false Time eq_refl) in Hl. destruct (symmetric_fft_wrong (fun v => Done v) plain_fft b v) as (v' & E & P & _); [destruct Hl; tauto|done|].
  by exists v'.
Qed.

(** ** What the other calls do *)
Lemma to_complex_complex v : is_complex v = true -> exists v', to_complex v = Done (v', Err InputMustBeReal) /\ Model_Vec.data v' = Model_Vec.data v /\ len v' = len v /\ delta v' = delta v.
Proof. intros Hc. unfold to_complex. rewrite Hc. eexists. split; [reflexivity|]. by destruct (complex_result v). Qed.
Lemma convolve_signal_frequency r addr s sched b v o : vdomain v <> Time -> exists er, convolve_signal r addr s sched b v o = Done (v, b, Err er).
Proof. intros Hd. unfold convolve_signal. rewrite (not_time _ Hd). destruct (meta_disagree v o); eauto. Qed.
Lemma getter_wrong e op src dst : is_complex src = false \/ is_complex dst = true -> exists dst', vec_getter e op 0 src dst = Done dst' /\ len dst' = 0 /\ delta dst' = delta dst.
Proof.
  intros Hw. assert (E : negb (is_complex src) || is_complex dst = true) by (destruct Hw as [-> | ->]; [done|apply orb_true_r]).
  assert (Er : exists w, Model_Vec.resize n0 dst 0 = (w, Ok tt) /\ len w = 0 /\ delta w = delta dst).
  { unfold Model_Vec.resize. rewrite andb_false_r. destruct (alloc_len dst <? 0) eqn:Ea; [apply Nat.ltb_lt in Ea; lia|]. by eexists. }
  destruct Er as (w & Er & K). destruct op; cbn [vec_getter]; unfold get_real, get_imag, get_phase, get_magnitude, get_magnitude_squared, get_into; rewrite E, Er; by exists w.
Qed.
End invalid.
