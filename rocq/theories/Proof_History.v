(** Every call which isn't known to break a vector keeps it well formed. *)
From Verif Require Export Proof_FrameB.
From Verif Require Import Proof_Base Proof_Vec Proof_Chunk Model_Reorg.

Section ops.
Context {A : Type} `{Num A} `{Flt A} `{Rem A} `{Trig A} `{Math A} `{F : Fft A} `{RA : Rounding A}.
Implicit Types v : dvec A.

(** ** Conversions *)
Lemma not_complex_ok v : ok v -> ok (not_complex v).
Proof. intros [_ Ht]. unfold not_complex. apply rededicate_real; try done. cbn. lia. Qed.
Lemma half_le n : n / 2 <= n.
Proof. apply Nat.div_le_upper_bound; lia. Qed.
Lemma complex_to_real_ok op v v' : complex_to_real op v = Done v' -> ok v -> ok v'.
Proof.
  unfold complex_to_real, pure_complex_to_real_operation_inplace. intros E Hv. binv E; [by apply not_complex_ok|]. binv E0.
  destruct Hv as [[Hl _] Ht]. apply rededicate_real; try done. apply loop_len in E; [|intros i l r Eb; binv Eb; by lens].
  change (valid_len v / 2 <= length x0). rewrite E. pose proof (half_le (valid_len v)). unfold alloc_len, s_len, len, elems in *. lia.
Qed.
Lemma traded_real b v st b' t : trade b t (Model_Vec.data v) = (st, b') -> length t = valid_len v / 2 -> ok v ->
  ok (rededicate_from_force (real_result v) (vec_to_real (set_data (set_valid_len v (valid_len v / 2)) st))).
Proof.
  intros E Hl [[Hw _] Ht]. apply rededicate_real; try done. pose proof (half_le (valid_len v)).
  apply (trade_room _ _ _ _ _ (valid_len v / 2)) in E; [exact E| |lia]. destruct b; cbn [room]; try done. unfold len in Hw. lia.
Qed.
Lemma complex_to_real_b_ok op s sched b v v' b' : complex_to_real_b op s sched b v = Done (v', b') -> ok v -> ok v'.
Proof.
  unfold complex_to_real_b, pure_complex_to_real_operation. intros E Hv. binv E; [by apply not_complex_ok|]. binv E0.
  eapply traded_real; [eassumption| |done]. lens. match goal with E : borrow _ _ _ = _ |- _ => apply borrow_len in E end. congruence.
Qed.
Lemma complex_to_real_simd_b_ok g op r addr s sched b v v' b' : complex_to_real_simd_b g op r addr s sched b v = Done (v', b') -> ok v -> ok v'.
Proof.
  unfold complex_to_real_simd_b, simd_complex_to_real_operation. intros E Hv. binv E; [by apply not_complex_ok|]. binv E0.
  eapply traded_real; [eassumption| |done]. lens. match goal with E : borrow _ _ _ = _ |- _ => apply borrow_len in E end. congruence.
Qed.
Lemma to_complex_b_ok b v v' b' : to_complex_b b v = Done (v', b') -> ok v -> room b v (2 * len v) -> ok v'.
Proof.
  unfold to_complex_b. intros E Hv Hr. binv E; [apply rededicate_even; [done|cbn; lia]|].
  match goal with E : zero_interleave_b _ _ _ _ = _ |- _ => apply zero_interleave_b_ok in E as ([[Hw _] _] & _ & _ & _ & _ & Hl); [|done|done] end.
  destruct Hl as [Hl|[? _]]; [|lia]. apply rededicate_even; [|exact Hw]. change (Nat.even (valid_len d) = true). rewrite Hl, Nat.even_mul. done.
Qed.
Lemma to_complex_ok v v' res : to_complex v = Done (v', res) -> ok v -> ~ (is_complex v = false /\ ~ can_hold (Model_Vec.data v) (2 * len v)) -> ok v'.
Proof.
  unfold to_complex. intros E Hv Hh. destruct (is_complex v) eqn:Hc; binv E.
  { destruct Hv as [[Hl He] _]. apply rededicate_even; [|exact Hl]. apply He. done. }
  rename d into w. pose proof (zero_interleave_ok _ _ _ _ E0 Hv) as [[Hl _] _].
  assert (Hev : Nat.even (valid_len w) = true).
  { unfold zero_interleave in E0. rewrite Hc in E0. assert (E2 : (len v * 2 <? len v) = false) by (apply Nat.ltb_ge; lia). rewrite E2 in E0. binv E0.
    - match goal with E : Model_Vec.resize _ _ _ = _ |- _ => apply resize_Ok in E as (El & _) end. cbn. rewrite El, Nat.even_mul. cbn. by rewrite orb_true_r.
    - exfalso. apply Hh. split; [done|]. intros Hcan. match goal with E : Model_Vec.resize _ _ _ = _ |- _ => revert E end.
      unfold Model_Vec.resize. rewrite Hc. cbn [andb]. unfold try_resize, can_hold, alloc_len in *.
      destruct (s_len (Model_Vec.data v) <? len v * 2) eqn:Ea; [|done]. apply Nat.ltb_lt in Ea.
      destruct (s_kind (Model_Vec.data v)); try done; try lia.
      destruct (s_cap (Model_Vec.data v) <? len v * 2) eqn:Eb; [|done]. apply Nat.ltb_lt in Eb. lia. }
  unfold rededicate_with_runtime_data. destruct (complex_result v); try (apply rededicate_even; done).
  apply ok_even; done.
Qed.

(** ** Inverse transforms *)
Lemma vifft_ok r addr s sched b v v' b' : vifft r addr s sched b v = Done (v', b') -> ok v -> room b v (if is_complex v then 0 else 2 * len v) -> ok v'.
Proof.
  unfold vifft. intros E Hv Hr. binv E. apply simd_real_operation_frame in E0 as F0. apply swap_halves_priv_frame in E1 as F1.
  pose proof (frame_trans _ _ _ F0 F1) as Fr. apply plain_ifft_ok in E as (Ho & _); [done|by apply (frame_ok _ _ Fr)|by apply (frame_room _ _ _ Fr)].
Qed.
Lemma prepare_ok r addr s sched b v v' b' : prepare_argument r addr s sched b v = Done (v', b') -> ok v -> room b v (if is_complex v then 0 else 2 * len v) -> ok v'.
Proof.
  unfold prepare_argument. intros E Hv Hr. binv E. match goal with E : plain_fft _ _ = _ |- _ => apply plain_fft_ok in E as (Ho & _); [|done|done] end.
  match goal with E : vconj _ _ _ _ _ = _ |- _ => apply vconj_shrinks in E end. by apply (shrinks_ok _ _ E1).
Qed.
Lemma zero_pad_b_alloc v b n o v' b' res : zero_pad_b n0 b v n o = Done (v', b', res) ->
  (growable b -> growable b') /\ (~ growable b -> ~ growable b' /\ alloc_len v' = alloc_len v) /\ valid_len v' <= Nat.max (valid_len v) (if is_complex v then 2 * n else n).
Proof.
  unfold zero_pad_b. intros E. binv E; [split_and!; try done; lia|].
  match goal with E : trade _ _ _ = _ |- _ => apply trade_alloc in E as [E1' E2'] end. split_and!.
  - apply E1'.
  - intros Hg. destruct (E2' Hg). done.
  - cbn. lia.
Qed.
Lemma prepare_padded_ok r addr s sched b v v' b' : prepare_argument_padded r addr s sched b v = Done (v', b') -> ok v -> room b v (4 * len v) -> ok v'.
Proof.
  unfold prepare_argument_padded. intros E Hv Hr. binv E.
  assert (Hn : (if is_complex v then 2 * x else x) <= 2 * len v).
  { unfold usub in E0. binv E0. unfold points, len in *. destruct (is_complex v); [|rewrite Nat.div_1_r; lia].
    pose proof (Nat.mul_div_le (valid_len v) 2). lia. }
  match goal with E : zero_pad_b _ _ _ _ _ = _ |- _ => pose proof (zero_pad_b_alloc _ _ _ _ _ _ _ E) as (Hg & Hg' & Hl); pose proof (zero_pad_b_meta _ _ _ _ _ _ _ E) as [En Ed];
    apply zero_pad_b_ok in E; [|destruct b; cbn in *; try done; lia|done] end.
  apply prepare_ok in E; [done|done|].
  assert (Hgb : growable b \/ ~ growable b) by (destruct b; cbn; tauto). destruct Hgb as [Hgb|Hgb].
  - specialize (Hg Hgb). match goal with |- room ?bb _ _ => by destruct bb end.
  - destruct (Hg' Hgb) as [Hgb' Ha]. destruct b; try by destruct Hgb. match goal with |- room ?bb _ _ => destruct bb; try by destruct Hgb' end. cbn in *.
    rewrite Ha. unfold len in *. destruct (is_complex d); lia.
Qed.
Lemma mirror_ok b v v' b' : mirror b v = Done (v', b') -> ok v -> room b v (2 * len v) ->
  ok v' /\ number_space v' = number_space v /\ domain v' = domain v /\ valid_len v' <= 2 * len v /\ (growable b -> growable b') /\
  (~ growable b -> ~ growable b' /\ alloc_len v' = alloc_len v) /\ valid_len v' <= alloc_len v'.
Proof.
  unfold mirror. intros E Hv Hr. binv E.
  { split_and!; try done; try (cbn; lia). eapply shrinks_ok; [apply invalid_shrinks|done]. }
  unfold usub in E0. binv E0. match goal with E : (2 <=? _) = true |- _ => apply Nat.leb_le in E end.
  match goal with E : trade _ _ _ = _ |- _ => pose proof (trade_alloc _ _ _ _ _ E) as [Et1 Et2]; apply (trade_room _ _ _ _ _ (2 * len v - 2)) in E as Hroom end.
  - split_and!; try done; try (cbn; lia).
    + apply (ok_meta v); try done. intros Hc. destruct Hv as [[_ He] _]. cbn. change (Nat.even (2 * len v - 2) = true).
      rewrite Nat.even_sub, Nat.even_mul by lia. done.
    + apply Et1.
    + intros Hg. destruct (Et2 Hg). done.
  - destruct b; cbn in *; try done. lia.
  - match goal with E : while_ _ _ _ _ = _ |- _ => apply (while_inv' (fun '(_, _, t) => length t = 2 * len v - 2)) in E; [by rewrite E| |] end.
    + intros [[a c] t] [[a' c'] t'] Ht _ Eb. binv Eb. lens. congruence.
    + lens. match goal with E : borrow _ _ _ = _ |- _ => apply borrow_len in E end. lia.
Qed.

Lemma room_le b v n m : m <= n -> room b v n -> room b v m.
Proof. destruct b; cbn; try done. lia. Qed.
Lemma windowed_fft_ok w s sched b v v' b' : windowed_fft w s sched b v = Done (v', b') -> ok v -> room b v (if is_complex v then 0 else 2 * len v) -> ok v'.
Proof.
  unfold windowed_fft. intros E Hv Hr. binv E. apply apply_window_frame in E0 as Fr.
  match goal with E : plain_fft _ _ = _ |- _ => apply plain_fft_ok in E as (Ho & _); [|by apply (frame_ok _ _ Fr)|by apply (frame_room _ _ _ Fr)] end.
  match goal with E : fft_shift _ = _ |- _ => apply swap_halves_priv_frame in E as Hf end. by apply (frame_ok _ _ Hf).
Qed.
Lemma windowed_ifft_ok w r addr s sched sched' b v v' b' : windowed_ifft w r addr s sched sched' b v = Done (v', b') ->
  ok v -> room b v (if is_complex v then 0 else 2 * len v) -> ok v'.
Proof.
  unfold windowed_ifft. intros E Hv Hr. binv E. match goal with E : vifft _ _ _ _ _ _ = _ |- _ => apply vifft_ok in E; [|done|done] end.
  match goal with E : unapply_window _ _ _ _ = _ |- _ => apply unapply_window_frame in E as Hf end. by apply (frame_ok _ _ Hf).
Qed.
Lemma plain_sifft_ok s sched b v v' b' res : plain_sifft s sched b v = Done (v', b', res) -> ok v -> room b v (2 * len v) ->
  (forall c, number_space v <> NDyn c) -> ok v'.
Proof.
  unfold plain_sifft. intros E Hv Hr Hn. binv E; [apply invalid_transform_ok|apply invalid_transform_ok|].
  match goal with E : mirror _ _ = _ |- _ => apply mirror_ok in E as (Ho & En & Ed & Hl & Hg1 & Hg2 & Hle); [|done|done] end.
  match goal with E : run_fft _ _ _ = _ |- _ => apply run_fft_frame in E as (He' & Hl' & Ha & Hle' & En' & Ed' & Hg3 & Hg4) end.
  assert (Et : real_time_result v = VRealTime).
  { unfold real_time_result, gen_or. destruct Hv as [_ Ht]. unfold typed in Ht. destruct (number_space v) eqn:?; [| |by destruct (Hn _ eq_refl)]; by destruct (domain v). }
  rewrite Et. match goal with E : pure_complex_to_real_operation _ _ _ _ _ _ _ = _ |- _ => unfold pure_complex_to_real_operation in E; binv E end.
  cbn [rededicate_from_force]. apply ok_real; try done.
  match goal with E : trade ?bb _ (Model_Vec.data (vec_to_freq ?w)) = _ |- _ => apply (trade_room _ _ (vec_to_freq w) _ _ (valid_len w / 2)) in E; [exact E| |] end.
  - match goal with |- room ?bb _ _ => destruct bb; try done end. cbn [room]. change (valid_len d0 / 2 <= alloc_len d0). pose proof (half_le (valid_len d0)). lia.
  - lens. match goal with E : borrow _ _ _ = _ |- _ => apply borrow_len in E end. change (valid_len (vec_to_freq d0)) with (valid_len d0) in *. lia.
Qed.
Lemma sifft_ok r addr s sched sched' b v v' b' res : sifft r addr s sched sched' b v = Done (v', b', res) -> ok v -> room b v (2 * len v) ->
  (forall c, number_space v <> NDyn c) -> ok v'.
Proof.
  unfold sifft. intros E Hv Hr Hn. binv E.
  assert (Hs : shrinks v x).
  { match goal with E : scale_complex _ _ _ _ _ _ = _ |- _ => unfold scale_complex in E; binv E end; [apply invalid_shrinks|].
    apply frame_shrinks. by eapply simd_complex_operation_frame. }
  match goal with E : ifft_shift _ = _ |- _ => apply swap_halves_priv_frame in E as Hf end.
  pose proof (shrinks_trans _ _ _ Hs (frame_shrinks _ _ Hf)) as (S1 & S2 & S3 & S4 & S5).
  apply plain_sifft_ok in E; [done| | |].
  - apply (shrinks_ok v); [|done]. by apply (shrinks_trans _ _ _ Hs), frame_shrinks.
  - apply (shrinks_room _ v); [done|]. apply (room_le _ _ (2 * len v)); [|done]. unfold len. lia.
  - by rewrite S3.
Qed.
Lemma windowed_sifft_ok w r addr s sched sched' sched'' b v v' b' res : windowed_sifft w r addr s sched sched' sched'' b v = Done (v', b', res) -> ok v -> room b v (2 * len v) ->
  (forall c, number_space v <> NDyn c) -> ok v'.
Proof.
  unfold windowed_sifft. intros E Hv Hr Hn. binv E; match goal with E : sifft _ _ _ _ _ _ _ = _ |- _ => apply sifft_ok in E; try done end.
  match goal with E : unapply_window _ _ _ _ = _ |- _ => apply unapply_window_frame in E as Hf end. by apply (frame_ok _ _ Hf).
Qed.

(** ** Convolution *)
Lemma into_buffer_ok {P} (convert : list A -> run (list P)) back b v f v' b' : into_buffer convert back b v f = Done (v', b') -> ok v -> ok v'.
Proof.
  unfold into_buffer. intros E Hv. binv E. pose proof Hv as [[Hl He] _].
  match goal with E : trade _ _ _ = _ |- _ => apply (trade_room _ _ _ _ _ (len v)) in E end.
  - apply (ok_meta v); done.
  - destruct b; done.
  - lens. match goal with E : borrow _ _ _ = _ |- _ => apply borrow_len in E end. lia.
Qed.
Lemma overlap_discard_ok b v o n v' b' res : overlap_discard b v o n = Done (v', b', res) -> ok v -> ok v'.
Proof.
  unfold overlap_discard. intros E Hv. binv E; try done.
  eapply frame_ok; [|exact Hv]. apply frame_set. match goal with E : splice (elems v) _ _ = _ |- _ => by apply splice_len in E end.
Qed.
Lemma convolve_signal_simd_ok r addr s sched b v o v' b' : convolve_signal_simd r addr s sched b v o = Done (v', b') -> ok v -> ok v'.
Proof. unfold convolve_signal_simd, convolve_signal_simd_impl. intros E Hv. binv E; by apply into_buffer_ok in E. Qed.
Lemma convolve_signal_scalar_ok s sched b v o v' b' : convolve_signal_scalar s sched b v o = Done (v', b') -> ok v -> ok v'.
Proof. unfold convolve_signal_scalar. intros E Hv. binv E; by apply into_buffer_ok in E. Qed.
Lemma convolve_signal_ok r addr s sched b v o v' b' res : convolve_signal r addr s sched b v o = Done (v', b', res) -> ok v -> ok v'.
Proof.
  unfold convolve_signal. intros E Hv. binv E; try done.
  - match goal with E : convolve_signal_simd _ _ _ _ _ _ _ = _ |- _ => by apply convolve_signal_simd_ok in E end.
  - by apply overlap_discard_ok in E.
  - match goal with E : convolve_signal_scalar _ _ _ _ _ = _ |- _ => by apply convolve_signal_scalar_ok in E end.
Qed.
Lemma convolve_real_ok rnd tou fits f ratio n r addr s sched b v v' b' : convolve_real_response rnd tou fits f ratio n r addr s sched b v = Done (v', b') -> ok v -> ok v'.
Proof.
  unfold convolve_real_response, convolve_function_complex, convolve_function_real. intros E Hv. binv E.
  - eapply shrinks_ok; [apply invalid_shrinks|done].
  - match goal with E : convolve_signal _ _ _ _ _ _ _ = _ |- _ => by apply convolve_signal_ok in E end.
  - by apply into_buffer_ok in E.
  - by apply into_buffer_ok in E.
Qed.
Lemma convolve_complex_ok rnd tou fits f ratio n r addr s sched b v v' b' : convolve_complex_response rnd tou fits f ratio n r addr s sched b v = Done (v', b') -> ok v -> ok v'.
Proof.
  unfold convolve_complex_response, convolve_function_complex. intros E Hv. binv E.
  - eapply shrinks_ok; [apply invalid_shrinks|done].
  - eapply shrinks_ok; [apply invalid_shrinks|done].
  - match goal with E : convolve_signal _ _ _ _ _ _ _ = _ |- _ => by apply convolve_signal_ok in E end.
  - by apply into_buffer_ok in E.
Qed.

(** ** Interpolation *)
Lemma fill_counting_len a b step s s' : fill_counting (A := A) a b step s = Done s' -> length (snd s') = length (snd s).
Proof.
  unfold fill_counting. intros E. binv E.
  apply (loop_inv' (fun s'' => length (snd s'') = length (snd s))) in E; [done| |done].
  intros k [i d] [i' d'] Hd Eb. cbn in *. binv Eb. lens. congruence.
Qed.
Lemma interpolate_lin_ok b v f d v' b' : interpolate_lin b v f d = Done (v', b') -> ok v ->
  room b v (match interpolated_len (len v) f with Done n => n | Panicked => 0 end) -> ok v'.
Proof.
  unfold interpolate_lin. intros E Hv Hr. binv E; [eapply shrinks_ok; [apply invalid_shrinks|done]|].
  match goal with E : interpolated_len _ _ = _ |- _ => rewrite E in Hr end. destruct Hv as [_ Ht]. apply ok_real; try done.
  match goal with E : trade _ _ _ = _ |- _ => apply (trade_room _ _ _ _ _ x) in E; [exact E|done|] end.
  match goal with E : fill_counting _ _ _ _ = _ |- _ => apply fill_counting_len in E; cbn in E end.
  match goal with E : borrow _ _ _ = _ |- _ => apply borrow_len in E end. lens. lia.
Qed.
Lemma interpolate_hermite_ok b v f d v' b' : interpolate_hermite b v f d = Done (v', b') -> ok v ->
  room b v (match interpolated_len (len v) f with Done n => n | Panicked => 0 end) -> ok v'.
Proof.
  unfold interpolate_hermite. intros E Hv Hr. binv E; [eapply shrinks_ok; [apply invalid_shrinks|done]|].
  match goal with E : interpolated_len _ _ = _ |- _ => rewrite E in Hr end. destruct Hv as [_ Ht]. apply ok_real; try done.
  match goal with E : trade _ _ _ = _ |- _ => apply (trade_room _ _ _ _ _ x) in E; [exact E|done|] end.
  repeat match goal with E : fill_counting _ _ _ _ = _ |- _ => apply fill_counting_len in E; cbn in E end.
  match goal with E : borrow _ _ _ = _ |- _ => apply borrow_len in E end. lens. lia.
Qed.

Lemma finish_pool_len {X} (pool : list (task X)) : forall r, finish_pool pool = Done r ->
  (forall c steps s, (c, steps) ∈ pool -> s ∈ steps -> forall l l', s l = Done l' -> length l' = length l) -> length (concat r) = length (concat (map fst pool)).
Proof.
  induction pool as [|[c steps] pool IH]; cbn [finish_pool]; intros r E Hp; [by injection E as <-|]. binv E. cbn [concat map fst].
  rewrite !app_length. f_equal.
  - match goal with E : run_steps _ _ = _ |- _ => apply run_steps_len in E; [done|] end. intros s Hs. apply (Hp c steps); [left|done].
  - apply IH; [done|]. intros c' steps' s Hc. apply (Hp c' steps'). by right.
Qed.
Lemma execute_with_range_len {X} co s sched (array : list X) w f r : 0 < w -> execute_with_range co s sched array w f = Done r ->
  (forall rg n st, st ∈ f rg n -> forall l l', st l = Done l' -> length l' = length l) -> length r = length array.
Proof.
  intros Hw E Hf. unfold execute_with_range in E. cbv zeta in E.
  generalize dependent (determine_number_of_chunks (length array) co s). intros n E. destruct (1 <? n) eqn:En.
  - apply Nat.ltb_lt in En. destruct array as [|x array].
    { unfold Model_Chunk.partition, calc_chunk_size in E. assert (E0 : (n =? 0) = false) by (apply Nat.eqb_neq; lia). cbn [length] in E. rewrite E0 in E.
      assert (Ed : ceil_div 0 n = 0) by (unfold ceil_div; apply Nat.div_small; lia). rewrite Ed in E. unfold umod in E.
      destruct w as [|w]; [lia|]. rewrite Nat.mod_0_l in E by lia. cbn in E. discriminate E. }
    destruct (ranges_of_pieces (x :: array) w n) as (pieces & ranges & E1 & E2 & _ & Ht); [done|lia|done|].
    rewrite E1, bind_Done, E2, bind_Done in E. binv E. rewrite run_pool_any in E0. apply finish_pool_len in E0.
    + rewrite E0. destruct Ht as (Hc & Hl & _). rewrite <- Hc. f_equal. f_equal. rewrite map_map. revert Hl. clear. revert ranges.
      induction pieces as [|p pieces IH]; intros [|rg ranges] Hl; cbn in *; try done. f_equal. apply IH. lia.
    + intros c steps st Hin Hst. apply elem_of_list_fmap in Hin as ([c' rg] & [= -> ->] & _). by apply (Hf rg (length c')).
  - apply run_steps_len in E; [done|]. intros st Hst. by apply (Hf _ _ st Hst).
Qed.
Lemma interpolate_points_len {P} (zero : P) add mul from h factor delay n s sched data temp temp' :
  interpolate_points (A := A) zero add mul from h factor delay n s sched data temp = Done temp' -> length temp' = length temp.
Proof. unfold interpolate_points. intros E. apply execute_with_range_len in E; [done|lia|]. intros rg m st Hst. by apply (elem_steps_len _ _ _ Hst). Qed.

(** The result of an interpolation which ends in a swap of the buffer *)
Lemma swapped_ok b v st b' t n : trade b t (Model_Vec.data v) = (st, b') -> ok v -> room b v n -> n <= length t -> Nat.even n = true ->
  ok (set_data (set_valid_len v n) st).
Proof. intros E Hv Hr Ht He. apply (trade_room _ _ _ _ _ n) in E; [|done..]. apply (ok_meta v); done. Qed.
Lemma interpolate_simd_ok {P} (zero : P) add mul from convert back simd_mul simd_sum h k delay n nl r addr s sched b v v' b' :
  interpolate_simd zero add mul from convert back simd_mul simd_sum h k delay n nl r addr s sched b v = Done (v', b') -> ok v -> room b v nl -> Nat.even nl = true -> ok v'.
Proof.
  unfold interpolate_simd. intros E Hv Hr He. binv E. eapply swapped_ok; [eassumption|done|done| |done].
  match goal with E : borrow _ _ _ = _ |- _ => apply borrow_len in E end. lens. lia.
Qed.
Lemma interpolatef_scalar_ok h f d n nl s sched b v v' b' : interpolatef_scalar h f d n nl s sched b v = Done (v', b') -> ok v -> room b v nl ->
  Nat.even nl = true -> ok v'.
Proof.
  unfold interpolatef_scalar. intros E Hv Hr He. binv E; (eapply swapped_ok; [eassumption|done|done| |done]);
  repeat match goal with E : interpolate_points _ _ _ _ _ _ _ _ _ _ _ _ = _ |- _ => apply interpolate_points_len in E end;
  match goal with E : borrow _ _ _ = _ |- _ => apply borrow_len in E end; lens; lia.
Qed.
Lemma rounded_up_even n : Nat.even (n + n mod 2) = true.
Proof. rewrite Nat.even_add. pose proof (Nat.div_mod n 2 ltac:(lia)). pose proof (Nat.mod_upper_bound n 2 ltac:(lia)).
  destruct (n mod 2) as [|[|k]] eqn:Em; [| |lia].
  - assert (Nat.even n = true) as ->; [|done]. replace n with (2 * (n / 2)) by lia. by rewrite Nat.even_mul.
  - assert (Nat.even n = false) as ->; [|done]. replace n with (2 * (n / 2) + 1) by lia. rewrite Nat.even_add, Nat.even_mul. done.
Qed.
Lemma interpolatef_ok h f d n r addr s sched b v v' b' : interpolatef h f d n r addr s sched b v = Done (v', b') -> ok v ->
  room b v (match to_usize (fround (nofnat (len v) * f)%num) with Some m => m + m mod 2 | None => 0 end) -> ok v'.
Proof.
  unfold interpolatef. cbv zeta. intros E Hv Hr. destruct (to_usize (fround (nofnat (len v) * f)%num)) as [m|]; [|discriminate E].
  change (unwrapped (Some m)) with (Done m) in E. rewrite bind_Done in E.
  pose proof (rounded_up_even m) as He. binv E; [by apply interpolate_simd_ok in E|by apply interpolate_simd_ok in E|by apply interpolatef_scalar_ok in E].
Qed.

(** A vector which is only complex while it is transformed *)
Lemma halved_ok v v' : pure_complex_to_real_operation_inplace fst v = Done v' -> ok v -> is_complex v = false -> ok v'.
Proof.
  unfold pure_complex_to_real_operation_inplace. intros E [[Hl _] Ht] Hc. binv E.
  match goal with E : loop _ _ _ _ = _ |- _ => apply loop_len in E; [|intros i l r Eb; binv Eb; by apply wr_len in Eb] end.
  apply ok_real; [done|done|]. change (valid_len v / 2 <= length x). pose proof (half_le (valid_len v)).
  unfold alloc_len, s_len, elems, len in *. lia.
Qed.
Lemma resize_b_alloc v b n v' b' res : resize_b n0 b v n = Done (v', b', res) -> number_space v' = number_space v /\ domain v' = domain v /\
  (forall u, res = Ok u -> valid_len v' = n).
Proof.
  unfold resize_b. intros E. binv E; try (by split_and!); try done.
  all: destruct (resize_cases n0 v n) as [[er E']|(w & t & E' & Hl & (_ & Ed & En) & _)].
  all: match goal with E : Model_Vec.resize _ _ _ = _ |- _ => rewrite E in E'; try discriminate E'; injection E' as E' ?; subst end; try (by split_and!).
Qed.
Lemma interpolate_ok r addr s sc sch b v h n d v' b' res : interpolate r addr s sc sch b v h n d = Done (v', b', res) -> ok v ->
  room b v (Nat.max (if is_complex v then len v else 2 * len v) (2 * n)) -> ok v'.
Proof.
  unfold interpolate. intros E Hv Hr. destruct (match h with Some _ => _ | None => _ end); [by injection E as <- <- <-|]. cbv zeta in E.
  apply bind_Done_inv in E as ([u c] & E0 & E).
  assert (Hu : ok u /\ number_space u = number_space v /\ domain u = domain v /\ room c u (Nat.max (len u) (2 * n))).
  { destruct (is_complex v) eqn:Hc; cbn [negb] in E0; [by injection E0 as <- <-|].
    apply zero_interleave_b_ok in E0 as (K1 & K2 & K3 & K4 & K5 & [K6|[K6 _]]); [|lia|done|apply (room_le _ _ (Nat.max (2 * len v) (2 * n))); [lia|done]].
    split_and!; try done. change (len u) with (valid_len u). rewrite K6. destruct b, c; try done; cbn [room growable] in *.
    - by destruct (K4 I).
    - by destruct (K4 I).
    - rewrite (proj2 (K5 (fun f => f))). exact Hr. }
  clear E0 Hr. destruct Hu as (Hu & En & Ed & Hr). assert (Hcu : is_complex u = is_complex v) by (unfold is_complex; by rewrite En).
  apply bind_Done_inv in E as ([[w bw] rs] & E0 & E). pose proof (resize_b_ok _ _ _ _ _ _ E0 Hr Hu) as Hw.
  pose proof (resize_b_alloc _ _ _ _ _ _ E0) as (Ew & Dw & _). assert (Hcw : is_complex w = is_complex v) by (unfold is_complex; by rewrite Ew, En).
  destruct rs as [[]|er]; [|by injection E as <- <- <-].
  apply bind_Done_inv in E as (cx & _ & E). destruct (Model_Vec.resize n0 cx _) as [cx1 [[]|er]]; [|discriminate E].
  apply bind_Done_inv in E as ([cx2 ?] & _ & E). apply bind_Done_inv in E as (cx3 & _ & E). apply bind_Done_inv in E as ([cx4 rs] & _ & E).
  destruct rs as [[]|er].
  2:{ apply bind_Done_inv in E as (l & El & E). injection E as <- <- <-. eapply frame_ok; [|exact Hw]. spliced. }
  apply bind_Done_inv in E as ([cx5 ?] & _ & E). apply bind_Done_inv in E as (l & El & E).
  assert (Hwl : ok (set_elems w l)) by (eapply frame_ok; [|exact Hw]; spliced).
  destruct (Model_Vec.resize n0 (set_elems w l) (2 * n)) as [w2 [[]|er]] eqn:Er; [|discriminate E].
  pose proof (resize_ok _ _ _ _ Er Hwl) as Hw2. pose proof (resize_Ok _ _ _ _ Er) as (_ & _ & Ew2 & _).
  apply bind_Done_inv in E as (w3 & E3 & E). apply simd_real_operation_frame in E3. pose proof (frame_ok _ _ E3 Hw2) as Hw3.
  set (w4 := set_delta w3 _) in E. assert (Hw4 : ok w4) by exact Hw3.
  assert (Hc4 : is_complex w4 = is_complex v).
  { rewrite <- Hcw. unfold w4, is_complex. destruct E3 as (_ & _ & E3 & _). cbn. by rewrite E3, Ew2. }
  clearbody w4. destruct (is_complex v); cbn [negb] in E; [by injection E as <- <- <-|].
  apply bind_Done_inv in E as (w5 & E5 & E). injection E as <- <- <-. by apply (halved_ok w4).
Qed.
Lemma interpft_ok r addr s sc sch b v n v' b' : interpft r addr s sc sch b v n = Done (v', b') -> ok v ->
  room b v (Nat.max (if is_complex v then len v else 2 * len v) (2 * n)) -> ok v'.
Proof. unfold interpft. intros E Hv Hr. binv E. match goal with E : interpolate _ _ _ _ _ _ _ _ _ _ = _ |- _ => exact (interpolate_ok _ _ _ _ _ _ _ _ _ _ _ _ _ E Hv Hr) end. Qed.
Lemma interpolatei_ok r addr s sc sch b v h k v' b' res : interpolatei r addr s sc sch b v h k = Done (v', b', res) -> ok v ->
  room b v (if k <=? 1 then 0 else if is_complex v then k * len v else k * 2 * len v) -> ok v'.
Proof.
  unfold interpolatei. intros E Hv Hr. destruct (k <=? 1) eqn:Hk; [by injection E as <- <- <-|].
  destruct (negb (r_symmetric h) && _); [by injection E as <- <- <-|]. cbv zeta in E.
  apply bind_Done_inv in E as ([w c] & E0 & E).
  assert (Hw : ok w /\ is_complex w = is_complex v).
  { destruct (is_complex v) eqn:Hc; cbn [negb] in E0; apply zero_interleave_b_ok in E0 as (K1 & K2 & _); try done;
    (split; [done|]); unfold is_complex; by rewrite K2. }
  destruct Hw as [Hw Hcw]. clear E0.
  apply bind_Done_inv in E as (cx & _ & E). apply bind_Done_inv in E as ([cx2 ?] & _ & E). apply bind_Done_inv in E as (cx3 & _ & E).
  apply bind_Done_inv in E as ([cx5 ?] & _ & E). apply bind_Done_inv in E as (l & El & E).
  assert (Hwl : ok (set_elems w l)) by (eapply frame_ok; [|exact Hw]; spliced).
  apply bind_Done_inv in E as (w3 & E3 & E). apply simd_real_operation_frame in E3. pose proof (frame_ok _ _ E3 Hwl) as Hw3.
  assert (Hc3 : is_complex w3 = is_complex v). { rewrite <- Hcw. unfold is_complex. destruct E3 as (_ & _ & E3 & _). by rewrite E3. }
  destruct (is_complex v); cbn [negb] in E; [by injection E as <- <- <-|].
  apply bind_Done_inv in E as (w5 & E5 & E). injection E as <- <- <-. by apply (halved_ok w3).
Qed.

(** ** Binary operations *)
Lemma binary_op_frame r addr s sched f g v o v' res : binary_op r addr s sched f g v o = Done (v', res) -> frame v v'.
Proof. unfold binary_op. intros E. binv E; try done. spliced. Qed.
Lemma binary_complex_op_frame r addr s sched f g v o v' res : binary_complex_op r addr s sched f g v o = Done (v', res) -> frame v v'.
Proof. unfold binary_complex_op. intros E. binv E; try done. spliced. Qed.
Lemma binary_smaller_op_frame r s sched g v o v' res : binary_smaller_op r s sched g v o = Done (v', res) -> frame v v'.
Proof. unfold binary_smaller_op. intros E. binv E; try done. spliced. Qed.
Lemma binary_smaller_complex_op_frame r s sched g v o v' res : binary_smaller_complex_op r s sched g v o = Done (v', res) -> frame v v'.
Proof. unfold binary_smaller_complex_op. intros E. binv E; try done. spliced. Qed.
Lemma vec_binary_frame e op i v o v' res : vec_binary e op i v o = Done (v', res) -> frame v v'.
Proof.
  destruct op; cbn [vec_binary]; unfold vadd, vsub, vmul, vdiv, add_smaller, sub_smaller, mul_smaller, div_smaller; intros E; binv E;
    lazymatch goal with
    | E : binary_op _ _ _ _ _ _ _ _ = _ |- _ => exact (binary_op_frame _ _ _ _ _ _ _ _ _ _ E)
    | E : binary_complex_op _ _ _ _ _ _ _ _ = _ |- _ => exact (binary_complex_op_frame _ _ _ _ _ _ _ _ _ _ E)
    | E : binary_smaller_op _ _ _ _ _ _ = _ |- _ => exact (binary_smaller_op_frame _ _ _ _ _ _ _ _ E)
    | E : binary_smaller_complex_op _ _ _ _ _ _ = _ |- _ => exact (binary_smaller_complex_op_frame _ _ _ _ _ _ _ _ E)
    | _ => done
    end.
Qed.

(** ** Getters and setters *)
Lemma resize_fst_ok v n : ok v -> ok (fst (Model_Vec.resize n0 v n)).
Proof. intros Hv. destruct (Model_Vec.resize n0 v n) as [v' res] eqn:E. by apply resize_ok in E. Qed.
Lemma ok_set_delta v d : ok v -> ok (set_delta v d).
Proof. done. Qed.
Lemma pure_into_target_ok op s sched v dst v' : pure_into_target op s sched v dst = Done v' -> ok dst -> ok v'.
Proof.
  unfold pure_into_target. intros E Hv. binv E. match goal with E : Model_Vec.resize _ _ _ = _ |- _ => apply resize_ok in E; [|done] end.
  eapply (frame_ok (set_delta d (delta v))); [|done]. spliced.
Qed.
Lemma simd_into_target_ok f op r addr s sched v dst v' : simd_into_target f op r addr s sched v dst = Done v' -> ok dst -> ok v'.
Proof.
  unfold simd_into_target. intros E Hv. binv E. match goal with E : Model_Vec.resize _ _ _ = _ |- _ => apply resize_ok in E; [|done] end.
  eapply (frame_ok (set_delta d (delta v))); [|done]. spliced.
Qed.
Lemma vec_getter_ok e op i src v v' : vec_getter e op i src v = Done v' -> ok v -> ok v'.
Proof.
  destruct op; cbn [vec_getter]; unfold get_real, get_imag, get_phase, get_magnitude, get_magnitude_squared, get_into; intros E Hv;
    binv E; try (by apply resize_fst_ok); (match goal with E : Model_Vec.resize _ _ _ = _ |- _ => apply resize_ok in E; [|done] end);
    lazymatch goal with
    | E : pure_into_target _ _ _ _ _ = _ |- _ => exact (pure_into_target_ok _ _ _ _ _ _ E ltac:(assumption))
    | E : simd_into_target _ _ _ _ _ _ _ _ = _ |- _ => exact (simd_into_target_ok _ _ _ _ _ _ _ _ _ E ltac:(assumption))
    end.
Qed.
Lemma get_two_ok body v t1 t2 u1 u2 : get_two body v t1 t2 = Done (u1, u2) -> (ok t1 -> ok u1) /\ (ok t2 -> ok u2).
Proof.
  unfold get_two. intros E. binv E; [split; apply resize_fst_ok|].
  split; intros Hv.
  - match goal with E : Model_Vec.resize _ t1 _ = _ |- _ => apply resize_ok in E; [|done]; eapply frame_ok; [|exact E] end. spliced.
  - match goal with E : Model_Vec.resize _ t2 _ = _ |- _ => apply resize_ok in E; [|done]; eapply frame_ok; [|exact E] end. spliced.
Qed.
Lemma vec_getter2_ok op v t1 t2 u1 u2 : vec_getter2 op v t1 t2 = Done (u1, u2) -> (ok t1 -> ok u1) /\ (ok t2 -> ok u2).
Proof. destruct op; cbn [vec_getter2]; unfold get_real_imag, get_mag_phase; apply get_two_ok. Qed.

Lemma loop_last {X} n : forall i (f : nat -> X -> run X) s r, loop (n + 1) i f s = Done r -> exists t, loop n i f s = Done t /\ f (i + n) t = Done r.
Proof.
  induction n as [|n IH]; intros i f s r E; cbn [Nat.add loop] in E.
  - binv E. exists s. by rewrite Nat.add_0_r.
  - binv E. apply IH in E as (t & E1 & E2). exists t. cbn [loop]. rewrite E0, bind_Done. split; [done|]. replace (i + S n) with (i + 1 + n) by lia. exact E2.
Qed.
Lemma vec_setter2_ok op v x y v' res : vec_setter2 op v x y = Done (v', res) -> ok v -> ok v'.
Proof.
  intros E Hv. pose proof Hv as [_ Ht]. destruct op; cbn [vec_setter2] in E; [unfold set_real_imag in E|unfold set_mag_phase in E]; binv E; try done.
  all: apply negb_false_iff, Nat.eqb_eq in Ec; apply ok_even; [done|cbn; rewrite Ec, Nat.even_add; by destruct (Nat.even (len y))|].
  all: unfold alloc_len, s_len; cbn.
  - match goal with E : loop _ _ _ _ = _ |- _ => apply loop_len in E; [|intros i l q Eb; binv Eb; by lens] end. lens.
    match goal with E : length _ = length (elems _) |- _ => rewrite E end. unfold elems in *. cbn in *. lia.
  - rewrite Ec in *. replace ((len y + len y + 1) / 2) with (len y) in * by (replace (len y + len y + 1) with (1 + len y * 2) by lia; rewrite Nat.div_add by lia; done).
    destruct (len y) as [|n] eqn:En; [lia|]. replace (Datatypes.S n) with (n + 1) in * by lia. apply loop_last in E2 as (t & E2 & E3).
    binv E3. match goal with E : wr ?aa (2 * (0 + n) + 1) _ = _ |- _ => pose proof (wr_len _ _ _ _ E); unfold wr in E; binv E end.
    match goal with E : (_ <? _) = true |- _ => apply Nat.ltb_lt in E end. lia.
Qed.

(** ** Merging and splitting *)
Lemma vmerge_ok v l v' res : vmerge n0 v l = Done (v', res) -> ok v -> ok v'.
Proof.
  unfold vmerge. intros E Hv. binv E; try done; (match goal with E : Model_Vec.resize _ _ _ = _ |- _ => apply resize_ok in E as Hd; [|done] end); try done; deep;
  (eapply frame_ok; [|exact Hd]; apply frame_set;
  match goal with E : loop _ _ _ _ = _ |- _ => apply loop_len in E; [done|intros i l' q Eb; binv Eb; lens; congruence] end).
Qed.
Lemma resize_all_ok ts n : forall ts' res, resize_all n0 ts n = (ts', res) -> Forall2 (fun t t' => ok t -> ok t') ts ts'.
Proof.
  induction ts as [|t ts IH]; intros ts' res E; cbn [resize_all] in E; [by injection E as <- <-|].
  destruct (Model_Vec.resize n0 t n) as [t' [u|er]] eqn:Er.
  - destruct (resize_all n0 ts n) as [ts'' r] eqn:Ea. injection E as <- <-. constructor; [|by apply (IH _ r)]. by apply (resize_ok _ _ _ _ Er).
  - injection E as <- <-. constructor; [by apply (resize_ok _ _ _ _ Er)|]. clear. induction ts; constructor; auto.
Qed.
Lemma wr_target_ok (ts ts' : list (dvec A)) k pos x : wr_target ts k pos x = Done ts' -> Forall2 (fun t t' => ok t -> ok t') ts ts'.
Proof.
  unfold wr_target. intros E. binv E. unfold wr in E. binv E. apply rd_Done in E0. lens. apply Forall2_same_length_lookup_2; [by rewrite insert_length|].
  intros i t t' Ht Ht'. destruct (decide (i = k)) as [->|Hi].
  - rewrite list_lookup_insert in Ht' by (by apply lookup_lt_Some in Ht). injection Ht' as <-. rewrite E0 in Ht. injection Ht as ->.
    apply frame_ok. by apply frame_set.
  - rewrite list_lookup_insert_ne in Ht' by done. rewrite Ht in Ht'. by injection Ht' as ->.
Qed.
Lemma kept_trans (a b c : list (dvec A)) : Forall2 (fun t t' => ok t -> ok t') a b -> Forall2 (fun t t' => ok t -> ok t') b c -> Forall2 (fun t t' => ok t -> ok t') a c.
Proof. intros K1. revert c. induction K1; intros c K2; inversion K2; subst; constructor; auto. Qed.
Lemma split_into_ok v ts ts' res : split_into n0 v ts = Done (ts', res) -> Forall2 (fun t t' => ok t -> ok t') ts ts'.
Proof.
  unfold split_into. intros E. binv E; deep.
  - clear. induction ts'; constructor; auto.
  - match goal with E : resize_all _ _ _ = _ |- _ => apply resize_all_ok in E as K1 end. apply (kept_trans _ _ _ K1).
    match goal with E : loop _ _ _ ?a = _ |- _ => apply (loop_inv' (fun q => Forall2 (fun t t' => ok t -> ok t') a q)) in E; [done| |] end.
    + intros i q q' Hq Eb. binv Eb. repeat match goal with E : wr_target _ _ _ _ = _ |- _ => apply wr_target_ok in E end.
      eauto using kept_trans.
    + match goal with |- Forall2 _ ?q ?q => clear; induction q; constructor; auto end.
  - match goal with E : resize_all _ _ _ = _ |- _ => apply resize_all_ok in E as K1 end. apply (kept_trans _ _ _ K1).
    match goal with E : loop _ _ _ ?a = _ |- _ => apply (loop_inv' (fun q => Forall2 (fun t t' => ok t -> ok t') a q)) in E; [done| |] end.
    + intros i q q' Hq Eb. binv Eb. repeat match goal with E : wr_target _ _ _ _ = _ |- _ => apply wr_target_ok in E end.
      eauto using kept_trans.
    + match goal with |- Forall2 _ ?q ?q => clear; induction q; constructor; auto end.
  - match goal with E : resize_all _ _ _ = _ |- _ => by apply resize_all_ok in E as K1 end.
Qed.

(** ** Correlation *)
Lemma points_le (v : dvec A) : (if is_complex v then 2 * points v else points v) <= len v.
Proof. unfold points, len. destruct (is_complex v); [|rewrite Nat.div_1_r; lia]. pose proof (Nat.mul_div_le (valid_len v) 2). lia. Qed.
Lemma correlate_ok r addr s sched sched' b v o v' b' res : correlate r addr s sched sched' b v o = Done (v', b', res) -> ok v -> room b v (len o) -> ok v'.
Proof.
  unfold correlate. intros E Hv Hr. destruct (_ || _) eqn:Ec; [|destruct (negb (ddomain_eqb (vdomain o) Frequency) || _) eqn:Eo].
  1, 2: injection E as <- <- <-; apply ok_even; [|done|cbn; lia]; destruct Hv as [_ Ht]; unfold typed in *; cbn; by destruct (number_space v), (domain v).
  apply orb_false_iff in Ec as [_ Hcv%negb_false_iff]. apply orb_false_iff in Eo as [_ Hco%negb_false_iff]. binv E.
  all: match goal with E : zero_pad_b _ _ _ _ _ = _ |- _ => apply zero_pad_b_ok in E as Hd; [|rewrite Hcv; apply (room_le _ _ (len o)); [|done]; pose proof (points_le o) as Hp; rewrite Hco in Hp; exact Hp|done] end.
  - match goal with E : swap_halves _ = _ |- _ => apply swap_halves_priv_frame in E; apply (frame_ok _ _ E) end.
    match goal with E : scale_real _ _ _ _ _ _ = _ |- _ => apply simd_real_operation_frame in E; apply (frame_ok _ _ E) end.
    eapply frame_ok; [|exact Hd]. spliced.
  - eapply frame_ok; [|exact Hd]. spliced.
  - done.
Qed.

(** ** Declaring another type *)
Lemma rededicate_force_ok t v : ok v -> ~ (rededicated t v = true /\ Nat.odd (len v) = true) -> ok (rededicate_from_force t v).
Proof.
  intros [[Hl He] Ht] Hn. destruct (rededicate_len t v) as [E1 E2].
  assert (Hc : is_complex (rededicate_from_force t v) = rededicated t v) by (by destruct t).
  split; [|apply rededicate_typed]. split; unfold len in *; [by rewrite E1, E2|]. rewrite Hc, E1. intros Hr. rewrite <- Nat.negb_odd.
  destruct (Nat.odd (valid_len v)) eqn:Eo; [|done]. by destruct Hn.
Qed.
Lemma rededicate_runtime_ok t c d v : ok v -> ~ ((match t with VGen => c | _ => rededicated t v end) = true /\ Nat.odd (len v) = true) ->
  ok (rededicate_with_runtime_data t v c d).
Proof.
  intros Hv Hn. unfold rededicate_with_runtime_data. destruct t; try by apply rededicate_force_ok.
  destruct Hv as [[Hl He] Ht]. split; [split|]; try done. cbn. intros ->. rewrite <- Nat.negb_odd.
  unfold len in Hn. destruct (Nat.odd (valid_len v)) eqn:Eo; [|done]. by destruct Hn.
Qed.
Lemma rededicate_ok t v : ok v -> ~ (rededicated t v = true /\ Nat.odd (len v) = true /\ same_domain t v) -> ok (rededicate_from n0 t v).
Proof.
  intros Hv Hn. unfold rededicate_from. destruct (_ && _) eqn:E.
  - destruct (Model_Vec.resize n0 (rededicate_from_force t v) 0) as [w res] eqn:Er. cbn.
    destruct (resize_cases n0 (rededicate_from_force t v) 0) as [[er E']|(w' & u & E' & Hl & (_ & Ed & En) & _)]; rewrite Er in E'; injection E' as -> ->.
    + exfalso. revert Er. unfold Model_Vec.resize. rewrite andb_false_r. destruct (alloc_len _ <? 0) eqn:Ea; [by apply Nat.ltb_lt in Ea; lia|done].
    + apply ok_even; [|by unfold len in Hl; rewrite Hl|unfold len in Hl; rewrite Hl; lia].
      pose proof (rededicate_typed t v) as Ht. unfold typed in *. by rewrite En, Ed.
  - apply rededicate_force_ok; [done|]. intros [K1 K2]. apply Hn. split_and!; try done.
    destruct Hv as [[_ He] Ht]. destruct (is_complex v) eqn:Hc.
    { specialize (He eq_refl). rewrite <- Nat.negb_odd in He. by rewrite K2 in He. }
    apply andb_false_iff in E as [E|E]; [by destruct t; cbn in *; try congruence; discriminate|]. apply negb_false_iff in E.
    destruct t; cbn in *; try done; by destruct (vdomain v).
Qed.

Lemma vec_inplace_ok e op i v v' : vec_inplace e op i v = Done v' -> ok v -> ok v'.
Proof. intros E. apply shrinks_ok. by apply (vec_inplace_shrinks e op i). Qed.
Lemma fixed_room (b : buffer A) v n : ~ match b with FixedLenBuffer _ => alloc_len v < n | _ => False end -> room b v n.
Proof. destruct b; cbn; try done. lia. Qed.

Lemma perform_ok e fits c v w : perform e fits c v = Done w -> ~ breaks c v -> ok v -> ok w.
Proof.
  intros E Hb Hv. assert (Hroom : forall b, buffer_of c = Some b -> room b v (demand c v)).
  { intros b Eb. apply fixed_room. intros K. apply Hb. left. by rewrite Eb. }
  assert (Hb2 : ~ match c with
  | C_fallible To_complex _ => is_complex v = false /\ ~ can_hold (Model_Vec.data v) (2 * len v)
  | C_fallible (Plain_sifft | Sifft | Windowed_sifft _) _ => exists b, number_space v = NDyn b
  | C_conversion (Rededicate_from_force t) => rededicated t v = true /\ Nat.odd (len v) = true
  | C_rededicate t => rededicated t v = true /\ Nat.odd (len v) = true /\ same_domain t v
  | C_conversion (Rededicate_with_runtime_data t c _) => (match t with VGen => c | _ => rededicated t v end) = true /\ Nat.odd (len v) = true
  | _ => False
  end) by (intros K; apply Hb; by right). clear Hb.
  destruct c; cbn [perform] in E.
  - by apply vec_inplace_ok in E.
  - binv E. match goal with E : vec_binary _ _ _ _ _ = _ |- _ => apply vec_binary_frame in E; by apply (frame_ok _ _ E) end.
  - destruct op; cbn [vec_conversion] in E; try (injection E as <-); unfold magnitude, magnitude_squared, to_real, to_imag, phase in *;
    lazymatch goal with
    | E : complex_to_real _ _ = _ |- _ => exact (complex_to_real_ok _ _ _ E Hv)
    | |- ok (rededicate_from_force _ _) => by apply rededicate_force_ok
    | |- _ => by apply rededicate_runtime_ok
    end.
  - injection E as <-. by apply rededicate_ok.
  - specialize (Hroom _ eq_refl). binv E. destruct op; cbn [vec_buffered demand] in *; unfold magnitude_b, magnitude_squared_b, to_real_b, to_imag_b, phase_b in *;
    lazymatch goal with
    | E : complex_to_real_b _ _ _ _ _ = _ |- _ => exact (complex_to_real_b_ok _ _ _ _ _ _ _ E Hv)
    | E : complex_to_real_simd_b _ _ _ _ _ _ _ _ = _ |- _ => exact (complex_to_real_simd_b_ok _ _ _ _ _ _ _ _ _ _ E Hv)
    | E : to_complex_b _ _ = _ |- _ => exact (to_complex_b_ok _ _ _ _ E Hv Hroom)
    | E : plain_fft _ _ = _ |- _ => exact (proj1 (plain_fft_ok _ _ _ _ E Hv Hroom))
    | E : vfft _ _ = _ |- _ => exact (proj1 (vfft_ok _ _ _ _ E Hv Hroom))
    | E : windowed_fft _ _ _ _ _ = _ |- _ => exact (windowed_fft_ok _ _ _ _ _ _ _ E Hv Hroom)
    | E : plain_ifft _ _ = _ |- _ => exact (proj1 (plain_ifft_ok _ _ _ _ E Hv Hroom))
    | E : vifft _ _ _ _ _ _ = _ |- _ => exact (vifft_ok _ _ _ _ _ _ _ _ E Hv Hroom)
    | E : windowed_ifft _ _ _ _ _ _ _ _ = _ |- _ => exact (windowed_ifft_ok _ _ _ _ _ _ _ _ _ _ E Hv Hroom)
    | E : prepare_argument _ _ _ _ _ _ = _ |- _ => exact (prepare_ok _ _ _ _ _ _ _ _ E Hv Hroom)
    | E : prepare_argument_padded _ _ _ _ _ _ = _ |- _ => exact (prepare_padded_ok _ _ _ _ _ _ _ _ E Hv Hroom)
    end.
  - specialize (Hroom _ eq_refl). binv E. destruct op; cbn [vec_fallible demand] in *.
    + match goal with E : mbind _ _ = _ |- _ => binv E end. match goal with E : to_complex _ = _ |- _ => exact (to_complex_ok _ _ _ E Hv Hb2) end.
    + eapply symmetric_fft_ok; [| |eassumption|done|done]; [intros ? ? [= <-]; done|]. intros * K1 K2 K3. exact (proj1 (plain_fft_ok _ _ _ _ K1 K2 K3)).
    + eapply symmetric_fft_ok; [| |eassumption|done|done]; [intros ? ? [= <-]; done|]. intros * K1 K2 K3. exact (proj1 (vfft_ok _ _ _ _ K1 K2 K3)).
    + eapply symmetric_fft_ok; [| |eassumption|done|done]; [intros ? ? K; exact (apply_window_frame _ _ _ _ _ K)|]. intros * K1 K2 K3. exact (proj1 (vfft_ok _ _ _ _ K1 K2 K3)).
    + eapply plain_sifft_ok; [eassumption|done|done|]. intros c K. apply Hb2. by exists c.
    + eapply sifft_ok; [eassumption|done|done|]. intros c K. apply Hb2. by exists c.
    + eapply windowed_sifft_ok; [eassumption|done|done|]. intros c K. apply Hb2. by exists c.
  - specialize (Hroom _ eq_refl). binv E. destruct op; cbn [vec_inplace_b demand] in *;
    lazymatch goal with
    | E : mirror _ _ = _ |- _ => exact (proj1 (mirror_ok _ _ _ _ E Hv Hroom))
    | E : interpolate_hermite _ _ _ _ = _ |- _ => exact (interpolate_hermite_ok _ _ _ _ _ _ E Hv Hroom)
    | E : interpolate_lin _ _ _ _ = _ |- _ => exact (interpolate_lin_ok _ _ _ _ _ _ E Hv Hroom)
    | E : convolve_real_response _ _ _ _ _ _ _ _ _ _ _ _ = _ |- _ => exact (convolve_real_ok _ _ _ _ _ _ _ _ _ _ _ _ _ _ E Hv)
    | E : convolve_complex_response _ _ _ _ _ _ _ _ _ _ _ _ = _ |- _ => exact (convolve_complex_ok _ _ _ _ _ _ _ _ _ _ _ _ _ _ E Hv)
    | E : interpolatef _ _ _ _ _ _ _ _ _ _ = _ |- _ => exact (interpolatef_ok _ _ _ _ _ _ _ _ _ _ _ _ E Hv Hroom)
    | E : interpft _ _ _ _ _ _ _ _ = _ |- _ => exact (interpft_ok _ _ _ _ _ _ _ _ _ _ E Hv Hroom)
    end.
  - specialize (Hroom _ eq_refl). binv E. destruct op; cbn [vec_resample demand] in *;
    lazymatch goal with
    | E : interpolatei _ _ _ _ _ _ _ _ _ = _ |- _ => exact (interpolatei_ok _ _ _ _ _ _ _ _ _ _ _ _ E Hv Hroom)
    | E : interpolate _ _ _ _ _ _ _ _ _ _ = _ |- _ => exact (interpolate_ok _ _ _ _ _ _ _ _ _ _ _ _ _ E Hv Hroom)
    end.
  - binv E. match goal with E : vec_setter2 _ _ _ _ = _ |- _ => exact (vec_setter2_ok _ _ _ _ _ _ E Hv) end.
  - exact (vec_getter_ok _ _ _ _ _ _ E Hv).
  - binv E. match goal with E : vec_getter2 _ _ _ _ = _ |- _ => exact (proj1 (vec_getter2_ok _ _ _ _ _ _ E) Hv) end.
  - binv E. match goal with E : vec_getter2 _ _ _ _ = _ |- _ => exact (proj2 (vec_getter2_ok _ _ _ _ _ _ E) Hv) end.
  - specialize (Hroom _ eq_refl). binv E. match goal with E : correlate _ _ _ _ _ _ _ _ = _ |- _ => exact (correlate_ok _ _ _ _ _ _ _ _ _ _ _ E Hv Hroom) end.
  - binv E. match goal with E : convolve_signal _ _ _ _ _ _ _ = _ |- _ => exact (convolve_signal_ok _ _ _ _ _ _ _ _ _ _ E Hv) end.
  - binv E. match goal with E : vmerge _ _ _ = _ |- _ => exact (vmerge_ok _ _ _ _ E Hv) end.
  - binv E. match goal with E : split_into _ _ _ = _ |- _ => apply split_into_ok in E as K end. apply rd_Done in E.
    eapply Forall2_lookup_r in K as (t & Ht & K); [|exact E]. rewrite lookup_app_r, Nat.sub_diag in Ht by lia. injection Ht as <-. by apply K.
  - binv E. match goal with E : zero_pad _ _ _ _ = _ |- _ => exact (zero_pad_ok _ _ _ _ _ E Hv) end.
  - specialize (Hroom _ eq_refl). binv E. match goal with E : zero_pad_b _ _ _ _ _ = _ |- _ => exact (zero_pad_b_ok _ _ _ _ _ _ _ E Hroom Hv) end.
  - binv E. match goal with E : zero_interleave _ _ _ = _ |- _ => exact (zero_interleave_ok _ _ _ _ E Hv) end.
  - specialize (Hroom _ eq_refl). binv E. match goal with E : zero_interleave_b _ _ _ _ = _ |- _ => exact (proj1 (zero_interleave_b_ok _ _ _ _ _ E Hv Hroom)) end.
  - injection E as <-. by apply resize_fst_ok.
  - specialize (Hroom _ eq_refl). binv E. match goal with E : resize_b _ _ _ _ = _ |- _ => exact (resize_b_ok _ _ _ _ _ _ E Hroom Hv) end.
Qed.
Lemma history_ok u w : leads_to u w -> ok u -> ok w.
Proof. intros Hl Hu. induction Hl; [done|]. eapply perform_ok; eauto. Qed.
End ops.
