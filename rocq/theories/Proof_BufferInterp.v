(** Interpolations don't depend on the content of the buffer. *)
From Verif Require Import Proof_Base Proof_Vec Proof_Frame Proof_FrameB Proof_Simd Proof_History.
From Verif Require Export Proof_BufferConvolve.
From stdpp Require Import list list_numbers tactics.
From Verif Require Import Model_Chunk Model_Reorg.

Section interp.
Context {A : Type} `{Num A} `{Rem A} `{RA : Rounding A}.

(** The counter is the same, and so are the elements up to the end of the range if they were the same up to its start. *)
Definition counting (n : nat) (k : nat) (x y : A * list A) : Prop := fst x = fst y /\ agree n (fun i => i < k) (snd x) (snd y).
Lemma rel_counting n a b (step : A -> run A) x y : counting n a x y -> rel (counting n b) (fill_counting a b step x) (fill_counting a b step y).
Proof.
  intros [Hf Ha]. unfold fill_counting. eapply rel_bind; [apply rel_slice, Ha|]. intros _ _ [Hab _]. eapply rel_mono; [|apply (rel_loop (counting n))].
  - intros u w Hu. by replace b with (a + (b - a)) by lia.
  - intros k [i1 d1] [i2 d2] Hk [Hi Hd]. cbn [fst snd] in Hi, Hd. subst i2. same. eapply rel_bind; [apply rel_wr, Hd|]. intros e1 e2 [_ He].
    split; [done|]. cbn [fst snd]. revert He. apply agree_mono. intros i _ Hi. lia.
  - done.
Qed.
Lemma counting_start n (z : A) (T1 T2 : list A) : length T1 = n /\ length T2 = n -> counting n 0 (z, T1) (z, T2).
Proof. intros [H1 H2]. split; [done|]. split_and!; [done|done|]. intros i _ Hi. lia. Qed.
Lemma rel_interpolate_lin b1 b2 (v : dvec A) factor delay : alike b1 b2 -> rel same_vb (interpolate_lin b1 v factor delay) (interpolate_lin b2 v factor delay).
Proof.
  intros Hb. unfold interpolate_lin. apply rel_same. intros dl _. eapply rel_bind; [by apply rel_borrow|]. intros T1 T2 HT.
  destruct (is_complex v); [split; [done|]; by apply give_back_alike|]. same. apply rel_same. intros e Ee. apply usub_eq in Ee as [He ->].
  eapply rel_bind; [apply rel_counting, counting_start, HT|]. intros [i1 d1] [i2 d2] [_ Hd]. cbn [snd] in Hd. same. same.
  eapply rel_bind; [apply rel_wr, Hd|]. intros f1 f2 [_ Hf]. apply rel_trade; [done| |intros; done]. apply (agree_eq _ _ _ _ Hf). intros i Hi. lia.
Qed.
Lemma rel_interpolate_hermite b1 b2 (v : dvec A) factor delay : alike b1 b2 -> rel same_vb (interpolate_hermite b1 v factor delay) (interpolate_hermite b2 v factor delay).
Proof.
  intros Hb. unfold interpolate_hermite. apply rel_same. intros dl _. eapply rel_bind; [by apply rel_borrow|]. intros T1 T2 HT.
  destruct (is_complex v); [split; [done|]; by apply give_back_alike|]. same. apply rel_same. intros st _.
  eapply rel_bind; [apply rel_counting, counting_start, HT|]. intros x1 x2 Hx. apply rel_same. intros e _.
  eapply rel_bind; [apply rel_counting, Hx|]. intros y1 y2 Hy. eapply rel_bind; [apply rel_counting, Hy|]. intros [i1 d1] [i2 d2] [_ Hd]. cbn [snd] in Hd.
  apply rel_trade; [done| |intros; done]. apply (agree_eq _ _ _ _ Hd). intros i Hi. lia.
Qed.
Lemma rel_interpolate_points {P} (zero : P) add mul from h factor delay n s sched (data d1 d2 : list P) : length d1 = length d2 ->
  rel (fun x y => x = y /\ length x = length d1) (interpolate_points zero add mul from h factor delay n s sched data d1) (interpolate_points zero add mul from h factor delay n s sched data d2).
Proof.
  intros Hl. unfold interpolate_points.
  apply (rel_execute Large s sched 1 (fun range k =>
      let center := (nofnat (fst range + k) / factor)%num in
      let rounded := ffloor center in
      z ← unwrapped (to_isize rounded);
      it ← wi_new (length data) (z - Z.of_nat n - 1) (2 * n + 1);
      neighbours ← items (wi_next data) it;
      Done (interpolation_sum zero add mul from h (nopp (nofnat n) - (center - rounded) + delay)%num neighbours))); [lia|done].
Qed.
Lemma whole_splice n (T1 T2 : list A) x : length T1 = n /\ length T2 = n -> length x = n -> rel eq (splice T1 0 x) (splice T2 0 x).
Proof.
  intros HT Hx. eapply rel_mono; [|apply (rel_splice n n _ (fun _ => True) T1 T2 0 x x (agree_none _ _ _ HT)); by split_and!].
  intros y1 y2 [_ Hy]. apply (agree_eq _ _ _ _ Hy). intros i Hi. cbn [Nat.leb andb]. rewrite (proj2 (Nat.ltb_lt _ _)) by lia. done.
Qed.
Lemma rel_interpolatef_scalar h factor delay n m s sched b1 b2 (v : dvec A) : alike b1 b2 ->
  rel same_vb (interpolatef_scalar h factor delay n m s sched b1 v) (interpolatef_scalar h factor delay n m s sched b2 v).
Proof.
  intros Hb. unfold interpolatef_scalar. eapply rel_bind; [by apply rel_borrow|]. intros T1 T2 HT. same. destruct (is_complex v).
  - eapply rel_bind; [apply rel_slice, (agree_none _ _ _ HT)|]. intros d1 d2 [_ Hd]. rewrite Nat.sub_0_r in Hd. eapply rel_bind; [apply rel_to_complex, Hd|].
    intros c1 c2 [Hm (L1 & L2 & _)]. same. eapply rel_bind; [apply rel_interpolate_points; lia|]. intros y ? [<- Hy].
    eapply rel_bind; [apply (whole_splice m); [done|rewrite complex_to_array_length; lia]|]. intros t ? <-. by apply rel_trade.
  - eapply rel_bind; [apply rel_interpolate_points; destruct HT; lia|]. intros y ? [<- Hy]. by apply rel_trade.
Qed.
Lemma rel_interpolate_simd {P} (zero : P) add mul from (convert : list A -> run (list P)) back m simd_mul simd_sum h factor delay n nl r addr s sched b1 b2 (v : dvec A) : alike b1 b2 ->
  (forall l1 l2, length l1 = nl -> length l2 = nl ->
     rel (fun d1 d2 => (length d1 = m /\ length d2 = m) /\ forall d : list P, length d = m -> length (back d) = nl) (convert l1) (convert l2)) ->
  rel same_vb (interpolate_simd zero add mul from convert back simd_mul simd_sum h factor delay n nl r addr s sched b1 v)
    (interpolate_simd zero add mul from convert back simd_mul simd_sum h factor delay n nl r addr s sched b2 v).
Proof.
  intros Hb Hcv. unfold interpolate_simd. cbv zeta. eapply rel_bind; [by apply rel_borrow|]. intros T1 T2 HT. same. same.
  eapply rel_bind; [apply rel_slice, (agree_none _ _ _ HT)|]. intros t1 t2 [_ (L1 & L2 & _)]. rewrite Nat.sub_0_r in L1, L2.
  eapply rel_bind; [by apply Hcv|]. intros d1 d2 [[Hd1 Hd2] Hback]. same. same. same. same. apply rel_same. intros [a z] _. same. same. same. rewrite Hd1, Hd2.
  apply rel_same. intros upto Eu. apply usub_eq in Eu as [Hle ->].
  eapply rel_bind; [apply rel_slice, (agree_none _ _ _ (conj Hd1 Hd2))|]. intros m1 m2 [Hab (M1 & M2 & _)].
  eapply rel_bind; [apply rel_execute; [lia|lia]|].
  intros y ? [<- Hy]. rewrite M1 in Hy. eapply rel_bind; [eapply rel_splice; [apply (agree_none _ _ _ (conj Hd1 Hd2))|]; apply (conj Hy (conj Hy (fun _ _ (_ : True) => eq_refl)))|].
  intros y1 y2 [_ Hy']. same. same. destruct Hy' as (Y1 & Y2 & Hy'). rewrite Y1, Y2.
  eapply rel_bind; [apply rel_edges; [lia|exact (conj Y1 (conj Y2 Hy'))]|]. intros u1 u2 Hu.
  assert (u1 = u2) as <-.
  { apply (agree_eq _ _ _ _ Hu). intros i Hi. set (q := points x1 * factor) in *. clearbody q. destruct (Nat.leb_spec q i), (Nat.ltb_spec i (q + (m - q - q))); cbn [andb]; try lia. }
  destruct Hu as (U1 & _ & _). eapply rel_bind; [apply (whole_splice nl); [done|by apply Hback]|]. intros t ? <-. by apply rel_trade.
Qed.
Lemma rel_interpolatef h factor delay n r addr s sched b1 b2 (v : dvec A) : alike b1 b2 ->
  rel same_vb (interpolatef h factor delay n r addr s sched b1 v) (interpolatef h factor delay n r addr s sched b2 v).
Proof.
  intros Hb. unfold interpolatef. cbv zeta. same. destruct (_ && _ && _); [|by apply rel_interpolatef_scalar]. same. destruct (is_complex v).
  - eapply rel_interpolate_simd; [done|]. intros; by apply convert_complex.
  - eapply rel_interpolate_simd; [done|]. intros; by apply convert_reals.
Qed.
End interp.

(** Which of the buffers fit to a storage depends on their kind only. *)
Definition is_fixed {A} (b : buffer A) : bool := match b with FixedLenBuffer _ => true | _ => false end.
(** The buffer may be used with all of the given kinds of storages. *)
Lemma buffer_fits_kind {A} (b1 b2 : buffer A) s s' : is_fixed b1 = is_fixed b2 -> s_kind s = s_kind s' -> buffer_fits b1 s = buffer_fits b2 s'.
Proof. unfold buffer_fits. intros Hb <-. by destruct b1, b2. Qed.
Lemma trade_kind {A} b t (s : storage A) st b' : trade b t s = (st, b') -> is_fixed b = is_fixed b' /\ s_kind st = s_kind s.
Proof. by destruct b; cbn [trade]; intros [= <- <-]. Qed.
Lemma trade_storage {A} b t (s : storage A) st b' : trade b t s = (st, b') -> buffer_fits b s = true -> wf_storage s -> wf_storage st.
Proof.
  unfold wf_storage, s_len. destruct b; cbn [trade]; intros [= <- <-]; cbn; [done|done|]. intros _ [H1 H2]. rewrite app_length, take_length, drop_length. unfold s_len in *.
  split; [lia|]. intros K1 K2. specialize (H2 K1 K2). lia.
Qed.
Lemma zero_interleave_kind {A} (z : A) b v k v' b' : zero_interleave_b z b v k = Done (v', b') -> buffer_fits b (Model_Vec.data v) = true -> wf_storage (Model_Vec.data v) ->
  is_fixed b = is_fixed b' /\ buffer_fits b' (Model_Vec.data v') = true /\ wf_storage (Model_Vec.data v').
Proof.
  unfold zero_interleave_b. intros E Hf Hw. destruct (k <=? 1); [injection E as <- <-; done|]. binv E.
  rename Ep into Et.
  pose proof (trade_kind _ _ _ _ _ Et) as [K1 K2]. split; [done|]. split; [|by apply (trade_storage _ _ _ _ _ Et)].
  rewrite <- Hf. apply buffer_fits_kind; done.
Qed.
Lemma resize_b_kind {A} (z : A) b v n v' b' res : resize_b z b v n = Done (v', b', res) -> is_fixed b = is_fixed b'.
Proof.
  unfold resize_b. intros E. destruct (_ && _); [injection E as <- <- <-; done|]. destruct (Model_Vec.resize z v n) as [w [[]|e]]; [injection E as <- <- <-; done|]. binv E.
  by destruct (trade_kind _ _ _ _ _ Ep).
Qed.

Section spectrum.
Context {A : Type} `{Num A} `{Flt A} `{Rem A} `{Trig A} `{F : Fft A}.

Lemma rel_interpolatei r addr s sc sch b1 b2 (v : dvec A) h k : alike b1 b2 ->
  rel same_vbr (interpolatei r addr s sc sch b1 v h k) (interpolatei r addr s sc sch b2 v h k).
Proof.
  intros Hb. unfold interpolatei. destruct (k <=? 1); [done|]. destruct (negb _ && _); [done|]. cbv zeta. eapply (rel_bind same_vb).
  { destruct (negb _); by apply rel_zero_interleave. }
  intros [w c1] [w' c2] [Hw Hc]. cbn [fst snd] in Hw, Hc. subst w'. same. vb ltac:(by apply rel_plain_fft, no_trade_alike). same.
  vb ltac:(by apply rel_plain_ifft, no_trade_alike). same. same. destruct (negb _); [same; done|done].
Qed.
Lemma rel_interpolate r addr s sc sch b1 b2 (v : dvec A) h m d : alike b1 b2 -> buffer_fits b1 (Model_Vec.data v) = true -> wf_storage (Model_Vec.data v) ->
  rel same_vbr (interpolate r addr s sc sch b1 v h m d) (interpolate r addr s sc sch b2 v h m d).
Proof.
  intros Hb Hf Hs. unfold interpolate. destruct (match h with Some _ => _ | None => _ end); [done|]. cbv zeta.
  eapply (rel_bind (fun x y => same_vb x y /\ buffer_fits (snd x) (Model_Vec.data (fst x)) = true /\ wf_storage (Model_Vec.data (fst x)))).
  { destruct (negb (is_complex v)); [|done]. pose proof (rel_zero_interleave n0 b1 b2 v 2 Hb) as Hr.
    destruct (zero_interleave_b n0 b1 v 2) as [[w c]|] eqn:E1, (zero_interleave_b n0 b2 v 2) as [[w' c']|] eqn:E2; cbn [rel] in Hr |- *; try done.
    destruct (zero_interleave_kind _ _ _ _ _ _ E1 Hf Hs) as (_ & K1 & K2). done. }
  intros [w c1] [w' c2] [[Hw Hc] [Hf' Hs']]. cbn [fst snd] in Hw, Hc, Hf', Hs'. subst w'. eapply rel_bind; [by apply rel_resize|].
  intros [[u d1] e1] [[u' d2] e2] [[[Hu Hd] He]|(Hp1 & Hp2 & Hd & He1 & He2)]; cbn [fst snd] in *.
  - subst u' e2. destruct e1 as [[]|]; [|done]. same. destruct (Model_Vec.resize n0 x (len w)) as [x' [[]|]]; [|done].
    vb ltac:(by apply rel_plain_fft, no_trade_alike). same. apply rel_same. intros [cx res] _. destruct res as [[]|]; [|same; done].
    vb ltac:(by apply rel_plain_ifft, no_trade_alike). same. destruct (Model_Vec.resize n0 (set_elems u x1) _) as [y' [[]|]]; [|done]. same.
    destruct (negb _); [same; done|done].
  - subst e1 e2. unfold borrowed. by rewrite Hp1, Hp2.
Qed.
Lemma rel_interpft r addr s sc sch b1 b2 (v : dvec A) m : alike b1 b2 -> buffer_fits b1 (Model_Vec.data v) = true -> wf_storage (Model_Vec.data v) ->
  rel same_vb (interpft r addr s sc sch b1 v m) (interpft r addr s sc sch b2 v m).
Proof. intros Hb Hf Hs. unfold interpft. vbr ltac:(by apply rel_interpolate). destruct e as [[]|]; done. Qed.
Lemma interpolate_kind r addr s sc sch b (v : dvec A) h m d v' b' res : interpolate r addr s sc sch b v h m d = Done (v', b', res) -> is_fixed b' = is_fixed b.
Proof.
  unfold interpolate. intros E. destruct (match h with Some _ => _ | None => _ end); [by injection E as <- <- <-|]. cbv zeta in E.
  apply bind_Done_inv in E as ([w c] & E1 & E). apply bind_Done_inv in E as ([[u d'] e] & E2 & E).
  assert (K1 : is_fixed c = is_fixed b).
  { destruct (negb _); [|by injection E1 as <- <-]. unfold zero_interleave_b in E1. binv E1; [done|]. symmetry. by destruct (trade_kind _ _ _ _ _ Ep). }
  apply resize_b_kind in E2. rewrite K1 in E2. destruct e as [[]|]; [|by injection E as <- <- <-].
  binv E; try done.
Qed.
Lemma interpolatei_kind r addr s sc sch b (v : dvec A) h k v' b' res : interpolatei r addr s sc sch b v h k = Done (v', b', res) -> is_fixed b' = is_fixed b.
Proof.
  unfold interpolatei. intros E. destruct (k <=? 1); [by injection E as <- <- <-|]. destruct (negb _ && _); [by injection E as <- <- <-|]. cbv zeta in E.
  apply bind_Done_inv in E as ([w c] & E1 & E).
  assert (K1 : is_fixed c = is_fixed b).
  { destruct (negb _); unfold zero_interleave_b in E1; (binv E1; [done|]); symmetry; by destruct (trade_kind _ _ _ _ _ Ep). }
  rewrite <- K1. binv E; done.
Qed.
Lemma interpft_kind r addr s sc sch b (v : dvec A) m v' b' : interpft r addr s sc sch b v m = Done (v', b') -> is_fixed b' = is_fixed b.
Proof. unfold interpft. intros E. binv E. by apply interpolate_kind in E0. Qed.
End spectrum.
