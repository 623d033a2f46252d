(** The operations with buffers and the conversions keep the vector well formed. *)
From Verif Require Export Proof_Frame Spec_History.
From Verif Require Import Proof_Base Proof_Vec.

(** What a step of a history needs and keeps *)
Definition ok {A} (v : dvec A) : Prop := wf v /\ typed v.
Lemma ok_meta {A} (v v' : dvec A) : ok v -> valid_len v' <= alloc_len v' -> number_space v' = number_space v -> domain v' = domain v ->
  (is_complex v = true -> Nat.even (valid_len v') = true) -> ok v'.
Proof. intros [_ Ht] Hl En Ed He. split; [split; [done|]; unfold is_complex, len in *; by rewrite En|]. unfold typed. by rewrite En, Ed. Qed.
Lemma shrinks_ok {A} (v v' : dvec A) : shrinks v v' -> ok v -> ok v'.
Proof.
  intros Hs Hv. pose proof Hs as (E1 & E2 & E3 & E4 & E5). destruct Hv as [Hw Ht]. split; [by apply (shrinks_wf v)|]. unfold typed. by rewrite E3, E4.
Qed.
Lemma frame_ok {A} (v v' : dvec A) : frame v v' -> ok v -> ok v'.
Proof. intros Hf. apply shrinks_ok. by apply frame_shrinks. Qed.
(** A vector is only emptied or declared to be real. *)
Lemma ok_real {A} (v' : dvec A) : typed v' -> is_complex v' = false -> valid_len v' <= alloc_len v' -> ok v'.
Proof. intros Ht Hc Hl. split; [split; [done|congruence]|done]. Qed.
Lemma ok_even {A} (v' : dvec A) : typed v' -> Nat.even (valid_len v') = true -> valid_len v' <= alloc_len v' -> ok v'.
Proof. intros Ht He Hl. split; [split; [done|intros _; done]|done]. Qed.

(** Declaring the type *)
Lemma rededicate_typed {A} t (v : dvec A) : typed (rededicate_from_force t v).
Proof. by destruct t. Qed.
Lemma rededicate_len {A} t (v : dvec A) : valid_len (rededicate_from_force t v) = valid_len v /\ alloc_len (rededicate_from_force t v) = alloc_len v.
Proof. by destruct t. Qed.
Lemma rededicate_even {A} t (v : dvec A) : Nat.even (valid_len v) = true -> valid_len v <= alloc_len v -> ok (rededicate_from_force t v).
Proof. intros He Hl. destruct (rededicate_len t v) as [E1 E2]. apply ok_even; [apply rededicate_typed|by rewrite E1|by rewrite E1, E2]. Qed.
Lemma rededicate_real {A} (v w : dvec A) : typed v -> number_space w = ns_to_real (number_space v) -> domain w = domain v -> valid_len w <= alloc_len w ->
  ok (rededicate_from_force (real_result v) w).
Proof.
  intros Ht En Ed Hl. destruct (rededicate_len (real_result v) w) as [E1 E2]. apply ok_real; [apply rededicate_typed| |by rewrite E1, E2].
  unfold real_result, typed in *. destruct (number_space v) eqn:Hn, (domain v) eqn:Hd; try done; unfold is_complex; cbn; unfold is_complex; rewrite ?En; done.
Qed.

(** Buffers *)
Definition growable {A} (b : buffer A) : Prop := match b with FixedLenBuffer _ => False | _ => True end.
Definition room {A} (b : buffer A) (v : dvec A) (n : nat) : Prop := match b with FixedLenBuffer _ => n <= alloc_len v | _ => True end.
Lemma trade_alloc {A} (b : buffer A) target (s : storage A) st b' : trade b target s = (st, b') ->
  (growable b -> s_len st = length target /\ growable b') /\ (~ growable b -> s_len st = s_len s /\ ~ growable b').
Proof.
  destruct b; cbn [trade]; intros [= <- <-]; split; try done; intros _.
  split; [|by intros ?]. unfold s_len. cbn. rewrite app_length, take_length, drop_length. unfold s_len. lia.
Qed.
Lemma borrow_len {A} (z : A) b n t : borrow z b n = Done t -> length t = n.
Proof.
  destruct b; cbn [borrow]; intros E; binv E; [apply resized_length|apply replicate_length|]. rewrite take_length.
  apply Nat.ltb_ge in Ec. lia.
Qed.
Lemma trade_room {A} (b : buffer A) target (v : dvec A) st b' n : trade b target (Model_Vec.data v) = (st, b') -> room b v n -> n <= length target -> n <= s_len st.
Proof.
  intros E Hr Hl. apply trade_alloc in E as [E1 E2]. destruct b; cbn [room growable] in *.
  - by rewrite (proj1 (E1 I)).
  - by rewrite (proj1 (E1 I)).
  - rewrite (proj1 (E2 ltac:(by intros ?))). exact Hr.
Qed.

Section ops.
Context {A : Type} `{Num A} `{Flt A} `{Rem A} `{Trig A} `{Math A} `{F : Fft A} `{RA : Rounding A}.
Implicit Types v : dvec A.

Lemma resize_ok v n v' res : Model_Vec.resize n0 v n = (v', res) -> ok v -> ok v'.
Proof.
  intros E [Hw Ht]. destruct (resize_cases n0 v n) as [[er E']|(w & t & E' & _ & (_ & Ed & En) & _)]; rewrite E in E'; injection E' as -> ->; [done|].
  split; [|unfold typed; by rewrite En, Ed]. pose proof (resize_wf n0 v n Hw) as Hw'. by rewrite E in Hw'.
Qed.
Lemma resize_Ok v n v' u : Model_Vec.resize n0 v n = (v', Ok u) -> valid_len v' = n /\ n <= alloc_len v' /\ number_space v' = number_space v /\ domain v' = domain v /\
  (is_complex v = true -> Nat.even n = true) /\ alloc_len v <= alloc_len v'.
Proof.
  intros E. destruct (resize_cases n0 v n) as [[er E']|(w & t & E' & Hl & (_ & Ed & En) & Ha & _ & Hel & He & _)]; rewrite E in E'; [discriminate E'|].
  injection E' as -> ->. split_and!; try done. { intros Hc. specialize (He Hc). rewrite <- Nat.negb_odd. by rewrite He. }
  unfold alloc_len, s_len. change (s_elems (Model_Vec.data w)) with (elems w). rewrite Hel, app_length. unfold elems. lia.
Qed.

Ltac resizing Hv := match goal with E : Model_Vec.resize _ _ _ = _ |- _ => let Hd := fresh "Hd" in pose proof (resize_ok _ _ _ _ E Hv) as Hd end.
Lemma zero_pad_ok v n o v' res : zero_pad n0 v n o = Done (v', res) -> ok v -> ok v'.
Proof.
  unfold zero_pad. intros E Hv. binv E; [done| |by resizing Hv].
  resizing Hv. revert Hd. apply frame_ok, frame_set. destruct o; deep; lens; congruence.
Qed.
Lemma zero_interleave_ok v k v' res : zero_interleave n0 v k = Done (v', res) -> ok v -> ok v'.
Proof.
  unfold zero_interleave. intros E Hv. binv E; [done| | |by resizing Hv].
  - resizing Hv. revert Hd. apply frame_ok, frame_set. lens. rewrite complex_to_array_length.
    apply loop_len in E1; [lia|]. intros i l r Eb. binv Eb; lens; done.
  - resizing Hv. revert Hd. apply frame_ok, frame_set. apply loop_len in E0; [lia|]. intros i l r Eb. binv Eb; lens; done.
Qed.
Lemma resize_b_ok v b n v' b' res : resize_b n0 b v n = Done (v', b', res) -> room b v n -> ok v -> ok v'.
Proof.
  unfold resize_b. intros E Hr Hv. binv E; try done; try by resizing Hv.
  destruct (resize_cases n0 v n) as [[er E']|(w & t & E' & _)]; [|congruence].
  match goal with E : Model_Vec.resize _ _ _ = _ |- _ => rewrite E in E'; injection E' as -> ->  end.
  apply (ok_meta v); try done; cbn.
  - match goal with E : trade _ _ _ = _ |- _ => apply (trade_room _ _ _ _ _ n) in E; [exact E|done|] end. lens.
    apply borrow_len in E0. lia.
  - intros Hc. rewrite Hc in Ec. cbn in Ec. by rewrite <- Nat.negb_odd, Ec.
Qed.
Lemma zero_pad_b_meta v b n o v' b' res : zero_pad_b n0 b v n o = Done (v', b', res) -> number_space v' = number_space v /\ domain v' = domain v.
Proof. unfold zero_pad_b. intros E. binv E; done. Qed.
Lemma zero_pad_b_ok v b n o v' b' res : zero_pad_b n0 b v n o = Done (v', b', res) -> room b v (if is_complex v then 2 * n else n) -> ok v -> ok v'.
Proof.
  intros E Hr Hv. pose proof (zero_pad_b_meta _ _ _ _ _ _ _ E) as [En Ed]. unfold zero_pad_b in E. binv E; [done|].
  apply (ok_meta v); try done; cbn.
  - match goal with E : trade _ _ _ = _ |- _ => apply (trade_room _ _ _ _ _ (if is_complex v then 2 * n else n)) in E; [exact E|done|] end.
    apply borrow_len in E0. destruct o; deep; lens; lia.
  - intros Hc. rewrite Hc. change (Nat.even (2 * n) = true). by rewrite Nat.even_mul.
Qed.
Lemma zero_interleave_b_ok v b k v' b' : zero_interleave_b n0 b v k = Done (v', b') -> ok v -> room b v (k * len v) ->
  ok v' /\ number_space v' = number_space v /\ domain v' = domain v /\ (growable b -> growable b') /\ (~ growable b -> ~ growable b' /\ alloc_len v' = alloc_len v) /\
  (valid_len v' = k * len v \/ k <= 1 /\ v' = v).
Proof.
  intros E Hv Hr. unfold zero_interleave_b in E. binv E.
  { apply Nat.leb_le in Ec. split_and!; auto. }
  match goal with E : trade _ _ _ = _ |- _ => pose proof (trade_alloc _ _ _ _ _ E) as [Et1 Et2]; apply (trade_room _ _ _ _ _ (k * len v)) in E; [|done|] end.
  - split_and!; try done.
    + apply (ok_meta v); try done. cbn. intros Hc. destruct Hv as [[_ He] _]. rewrite Nat.even_mul. unfold len in *. rewrite (He Hc). by rewrite orb_true_r.
    + apply Et1.
    + intros Hg. destruct (Et2 Hg) as [E1' E2']. done.
    + by left.
  - apply (while_inv' (fun '(t, _, _) => length t = k * len v)) in E3.
    + destruct x2 as [[t i] j]. cbn. lia.
    + intros [[t i] j] [[t' i'] j'] Ht _ Eb. binv Eb. lens. lia.
    + by rewrite replicate_length.
Qed.

(** ** Transforms *)
Lemma run_fft_frame f b v v' b' : run_fft f b v = Done (v', b') ->
  Nat.even (valid_len v') = true /\ valid_len v' = valid_len v /\ alloc_len v' = alloc_len v /\ valid_len v' <= alloc_len v' /\
  number_space v' = number_space v /\ domain v' = domain v /\ (growable b -> growable b') /\ (~ growable b -> ~ growable b').
Proof.
  unfold run_fft. intros E. binv E. lens. unfold alloc_len, s_len, len, elems in *. cbn.
  assert (Hg : (growable b -> growable (give_back b x)) /\ (~ growable b -> ~ growable (give_back b x))) by (by destruct b).
  destruct Hg. split_and!; try done; try lia. rewrite Nat.sub_0_r in *. replace (valid_len v) with (2 * length x1) by lia. by rewrite Nat.even_mul.
Qed.
Lemma invalid_transform_ok t v : ok (invalid_transform t v).
Proof. unfold invalid_transform. apply rededicate_even; [done|]. cbn. lia. Qed.

(** the first half of a transform *)
Definition made_complex b v : run (dvec A * buffer A) :=
  if negb (is_complex v) then '(v', b') ← zero_interleave_b n0 b v 2; Done (vec_to_complex v', b') else Done (v, b).
Lemma made_complex_ok b v v' b' : made_complex b v = Done (v', b') -> ok v -> room b v (if is_complex v then 0 else 2 * len v) ->
  (growable b -> growable b') /\ (~ growable b -> ~ growable b' /\ alloc_len v' = alloc_len v) /\ valid_len v' = (if is_complex v then len v else 2 * len v).
Proof.
  unfold made_complex. intros E Hv Hr. destruct (is_complex v) eqn:Hc; cbn [negb] in E; binv E; [done|].
  match goal with E : zero_interleave_b _ _ _ _ = _ |- _ => apply zero_interleave_b_ok in E as (_ & _ & _ & Hg & Hg' & Hl); [|done|done] end.
  split_and!; try done. destruct Hl as [Hl|[? _]]; [exact Hl|lia].
Qed.
Lemma transform_ok f t b v v' b' :
  ('(v, b) ← made_complex b v; '(v, b) ← run_fft f b v; Done (rededicate_from_force t (vec_to_freq v), b)) = Done (v', b') ->
  ok v -> room b v (if is_complex v then 0 else 2 * len v) ->
  ok v' /\ Nat.even (valid_len v') = true /\ (growable b -> growable b') /\ (~ growable b -> ~ growable b' /\ alloc_len v' = alloc_len v) /\
  valid_len v' = (if is_complex v then len v else 2 * len v).
Proof.
  intros E Hv Hr. binv E.
  match goal with E : made_complex _ _ = _ |- _ => apply made_complex_ok in E as (Hg1 & Hg2 & Hl); [|done|done] end.
  match goal with E : run_fft _ _ _ = _ |- _ => apply run_fft_frame in E as (He & Hl' & Ha & Hle & En & Ed & Hg3 & Hg4) end.
  match goal with |- ok (rededicate_from_force t ?w) /\ _ => destruct (rededicate_len t w) as [R1 R2] end.
  rewrite R1, R2. split_and!; try (cbn; congruence); try (cbn; tauto).
  - apply rededicate_even; done.
  - intros Hg. split; [apply Hg4; by apply Hg2|]. cbn. change (alloc_len d0 = alloc_len v). rewrite Ha. by apply Hg2.
  - change (valid_len (vec_to_freq d0)) with (valid_len d0). by rewrite Hl', Hl.
Qed.
Lemma plain_fft_ok b v v' b' : plain_fft b v = Done (v', b') -> ok v -> room b v (if is_complex v then 0 else 2 * len v) ->
  ok v' /\ (growable b -> growable b') /\ (~ growable b -> ~ growable b' /\ alloc_len v' = alloc_len v) /\ (valid_len v' = 0 \/ valid_len v' = (if is_complex v then len v else 2 * len v)).
Proof.
  unfold plain_fft. intros E Hv Hr. destruct (negb _).
  - injection E as <- <-. split; [apply invalid_transform_ok|]. split; [done|]. split; [|left; by destruct (freq_result v)]. intros ?. split; [done|].
    unfold invalid_transform. by destruct (freq_result v).
  - apply transform_ok in E as (? & ? & ? & ? & ?); auto.
Qed.
Lemma plain_ifft_ok b v v' b' : plain_ifft b v = Done (v', b') -> ok v -> room b v (if is_complex v then 0 else 2 * len v) ->
  ok v' /\ (growable b -> growable b') /\ (~ growable b -> ~ growable b' /\ alloc_len v' = alloc_len v).
Proof.
  unfold plain_ifft. intros E Hv Hr. destruct (negb _).
  - injection E as <- <-. split; [apply invalid_transform_ok|]. split; [done|]. intros ?. split; [done|].
    unfold invalid_transform. by destruct (time_result v).
  - apply transform_ok in E as (? & ? & ? & ? & ?); auto.
Qed.
Lemma vfft_ok b v v' b' : vfft b v = Done (v', b') -> ok v -> room b v (if is_complex v then 0 else 2 * len v) ->
  ok v' /\ (growable b -> growable b') /\ (~ growable b -> ~ growable b' /\ alloc_len v' = alloc_len v).
Proof.
  unfold vfft. intros E Hv Hr. binv E. match goal with E : plain_fft _ _ = _ |- _ => apply plain_fft_ok in E as (Ho & Hg & Hg' & _); [|done|done] end.
  match goal with E : fft_shift _ = _ |- _ => apply swap_halves_priv_frame in E as Hf end. split; [by apply (frame_ok _ _ Hf)|]. split; [done|].
  intros Hn. destruct Hf as (_ & -> & _). auto.
Qed.
Lemma shrinks_room b v w n : alloc_len w = alloc_len v -> room b v n -> room b w n.
Proof. intros E. destruct b; cbn; try done. by rewrite E. Qed.
Lemma frame_room b v w : frame v w -> room b v (if is_complex v then 0 else 2 * len v) -> room b w (if is_complex w then 0 else 2 * len w).
Proof. intros (E1 & E2 & E3 & _). unfold is_complex, len. rewrite E1, E3. by apply shrinks_room. Qed.

Lemma symmetric_fft_ok prepare f b v v' b' res : (forall v v', prepare v = Done v' -> frame v v') ->
  (forall b v v' b', f b v = Done (v', b') -> ok v -> room b v (if is_complex v then 0 else 2 * len v) -> ok v') ->
  symmetric_fft prepare f b v = Done (v', b', res) -> ok v -> room b v (4 * len v) -> ok v'.
Proof.
  intros Hp Hf E Hv Hr. unfold symmetric_fft in E. binv E; [apply invalid_transform_ok|apply invalid_transform_ok|].
  match goal with E : zero_interleave_b _ _ _ _ = _ |- _ => apply zero_interleave_b_ok in E as (Ho & En & Ed & Hg & Hg' & Hl); [|done|destruct b; cbn in *; try done; lia] end.
  assert (Hl' : valid_len d = 2 * len v) by (destruct Hl as [Hl|[? _]]; [exact Hl|lia]). clear Hl.
  match goal with E : unmirror _ _ = _ |- _ => unfold unmirror in E; binv E end.
  match goal with E : Model_Vec.resize _ _ _ = _ |- _ => apply (resize_ok _ _ _ _ E) end.
  match goal with E : f _ _ = _ |- _ => apply Hf in E as Hf'; [exact Hf'| |] end.
  - match goal with E : prepare _ = _ |- _ => apply Hp in E as Hfr end. apply (frame_ok _ _ Hfr). apply ok_even; cbn.
    + destruct Ho as [_ Ht]. unfold typed in *. cbn. by destruct (number_space d), (domain d).
    + rewrite Hl'. change (Nat.even (2 * len v) = true). by rewrite Nat.even_mul.
    + destruct Ho as [[Ho _] _]. exact Ho.
  - match goal with E : prepare _ = _ |- _ => apply Hp in E as (F1 & F2 & _) end.
    assert (Hgb : growable b \/ ~ growable b) by (destruct b; cbn; tauto). destruct Hgb as [Hgb|Hgb]; [specialize (Hg Hgb); match goal with |- room ?bb _ _ => by destruct bb end|].
    destruct (Hg' Hgb) as [Hgb' Ha]. destruct b; try by destruct Hgb. match goal with |- room ?bb _ _ => destruct bb; try by destruct Hgb' end. cbn in *.
    rewrite F2. change (alloc_len (vec_to_complex d)) with (alloc_len d). rewrite Ha. change (len x0) with (valid_len x0). rewrite F1. cbn.
    destruct (is_complex x0); lia.
Qed.
End ops.
