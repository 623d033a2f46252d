(** All methods with a buffer, sessions, matrices and foreign functions *)
From Verif Require Import Proof_Base Proof_Vec Proof_Frame Proof_FrameB.
From Verif Require Export Proof_BufferInterp Spec_BufferUse.
From stdpp Require Import list list_numbers tactics.
From Verif Require Import Model_Chunk Model_Reorg.

Section all.
Context {A : Type} `{Num A} `{Flt A} `{Rem A} `{Trig A} `{Math A} `{F : Fft A} `{RA : Rounding A}.

Lemma rel_vec_buffered e op i b1 b2 (v : dvec A) : clean e i (W_buffered op) b1 v -> alike b1 b2 -> rel same_vb (vec_buffered e op i b1 v) (vec_buffered e op i b2 v).
Proof.
  intros Hc Hb. destruct op; cbn [vec_buffered clean] in *.
  - destruct Hc as (K1 & K2 & K3 & K4). exact (proj1 (rel_magnitude _ _ _ _ _ _ _ Hb K1 K2 K3 K4)).
  - destruct Hc as (K1 & K2 & K3 & K4). exact (proj2 (rel_magnitude _ _ _ _ _ _ _ Hb K1 K2 K3 K4)).
  - exact (rel_to_real_b fst _ _ _ _ _ Hb).
  - exact (rel_to_real_b snd _ _ _ _ _ Hb).
  - exact (rel_to_real_b carg _ _ _ _ _ Hb).
  - by apply rel_to_complex_b.
  - by apply rel_plain_fft.
  - by apply rel_vfft.
  - by apply rel_windowed_fft.
  - by apply rel_plain_ifft.
  - by apply rel_vifft.
  - by apply rel_windowed_ifft.
  - by apply rel_prepare.
  - by apply rel_prepare_padded.
Qed.
Lemma rel_vec_fallible e op i b1 b2 (v : dvec A) : alike b1 b2 -> rel same_vbr (vec_fallible e op i b1 v) (vec_fallible e op i b2 v).
Proof.
  intros Hb. destruct op; cbn [vec_fallible].
  - apply rel_same. intros [w res] _. done.
  - apply rel_symmetric_fft; [|done]. intros; by apply rel_plain_fft.
  - apply rel_symmetric_fft; [|done]. intros; by apply rel_vfft.
  - apply rel_symmetric_fft; [|done]. intros; by apply rel_vfft.
  - by apply rel_plain_sifft.
  - by apply rel_sifft.
  - by apply rel_windowed_sifft.
Qed.
Lemma rel_vec_inplace_b e fits op i b1 b2 (v : dvec A) : clean e i (W_inplace_b op) b1 v -> alike b1 b2 ->
  rel same_vb (vec_inplace_b e fits op i b1 v) (vec_inplace_b e fits op i b2 v).
Proof.
  intros Hc Hb. destruct op; cbn [vec_inplace_b clean] in *.
  - by apply rel_mirror.
  - by apply rel_interpolate_hermite.
  - by apply rel_interpolate_lin.
  - by apply rel_convolve_real_response.
  - by apply rel_convolve_complex_response.
  - by apply rel_interpolatef.
  - destruct Hc. by apply rel_interpft.
Qed.
Lemma rel_vec_resample e op i b1 b2 (v : dvec A) : clean e i (W_resample op) b1 v -> alike b1 b2 -> rel same_vbr (vec_resample e op i b1 v) (vec_resample e op i b2 v).
Proof. intros Hc Hb. destruct op; cbn [vec_resample clean] in *; [by apply rel_interpolatei|]. destruct Hc. by apply rel_interpolate. Qed.
Lemma rel_clean_resize b1 b2 (v : dvec A) n : alike b1 b2 -> wf_storage (Model_Vec.data v) -> can_hold (Model_Vec.data v) n ->
  rel same_vbr (resize_b n0 b1 v n) (resize_b n0 b2 v n).
Proof.
  intros Hb [Hs1 Hs2] Hh. unfold resize_b. destruct (is_complex v && Nat.odd n) eqn:Eo; [done|].
  destruct (Model_Vec.resize n0 v n) as [v' [[]|e]] eqn:E; [done|exfalso].
  unfold Model_Vec.resize in E. rewrite Eo in E. destruct (alloc_len v <? n); [|done]. unfold try_resize in E. unfold can_hold in Hh.
  destruct (s_kind (Model_Vec.data v)) eqn:Ek; [done|..];
    match type of E with context [if ?c then _ else _] => destruct c eqn:Ec; [|done] end; apply Nat.ltb_lt in Ec; lia.
Qed.

Theorem rel_with_buffer e fits i u b1 b2 (v : dvec A) : clean e i u b1 v -> alike b1 b2 ->
  rel same_vbr (with_buffer e fits i u b1 v) (with_buffer e fits i u b2 v).
Proof.
  intros Hc Hb. destruct u; cbn [with_buffer].
  - vb ltac:(by apply rel_vec_buffered). done.
  - by apply rel_vec_fallible.
  - vb ltac:(by apply rel_vec_inplace_b). done.
  - by apply rel_vec_resample.
  - by apply rel_correlate.
  - by apply rel_convolve_signal.
  - destruct Hc. by apply rel_zero_pad.
  - vb ltac:(by apply rel_zero_interleave). done.
  - destruct Hc. by apply rel_clean_resize.
  - apply rel_same. intros [w res] _. done.
Qed.

Theorem session_same fits steps vs b1 b2 : alike b1 b2 -> clean_session fits steps vs b1 -> same_run (session fits steps vs b1) (session fits steps vs b2).
Proof.
  intros Hb Hc. apply same_run_rel. revert vs b1 b2 Hb Hc. induction steps as [|[[e k] u] steps IH]; intros vs b1 b2 Hb Hc; [done|]. cbn [session].
  apply rel_same. intros v Ev. unfold rd in Ev. destruct (vs !! k) as [v0|] eqn:Ek; [|done]. injection Ev as ->.
  cbn [clean_session] in Hc. destruct (Hc v Ek) as [Hc1 Hc2]. pose proof (rel_with_buffer e fits k u b1 b2 v Hc1 Hb) as Hr.
  destruct (with_buffer e fits k u b1 v) as [[[v1 c1] r1]|] eqn:E1, (with_buffer e fits k u b2 v) as [[[v2 c2] r2]|] eqn:E2; cbn [rel] in Hr; try done.
  destruct Hr as [[Hv Hc'] Hres]. cbn [fst snd] in Hv, Hc', Hres. subst v2 r2. rewrite !bind_Done.
  apply rel_same. intros ws Ew. unfold wr in Ew. destruct (k <? length vs); [|done]. injection Ew as <-.
  eapply rel_bind; [apply (IH _ c1 c2); [done|by apply (Hc2 _ _ _ eq_refl)]|]. intros [x y] ? <-. done.
Qed.

(** ** Matrices *)
Definition state (K : buffer A -> Prop) (b1 b2 : buffer A) : Prop := alike b1 b2 /\ K b1.
Section rows.
Context {St : Type} (S : St -> St -> Prop).
Definition keeps {W} (x y : W * St) : Prop := fst x = fst y /\ S (snd x) (snd y).
Definition keeps_res {W} (x y : W * St * result unit) : Prop := keeps (fst x) (fst y) /\ snd x = snd y.
Lemma rel_rows_buf {V} (op : nat -> St -> V -> run (V * St)) m i b1 b2 :
  (forall j v b1 b2, m !! j = Some v -> S b1 b2 -> rel keeps (op (i + j) b1 v) (op (i + j) b2 v)) -> S b1 b2 -> rel keeps (rows_buf_from i op b1 m) (rows_buf_from i op b2 m).
Proof.
  revert i b1 b2. induction m as [|v m IH]; intros i b1 b2 Ho Hs; [done|]. cbn [rows_buf_from]. eapply rel_bind.
  { pose proof (Ho 0 v b1 b2 eq_refl Hs) as Hr. rewrite Nat.add_0_r in Hr. exact Hr. }
  intros [v1 c1] [v2 c2] [Hv Hc]. cbn [fst snd] in Hv, Hc. subst v2. eapply rel_bind; [apply (IH _ c1 c2); [|done]|].
  - intros j w d1 d2 Hj Hd. replace (Datatypes.S i + j) with (i + Datatypes.S j) by lia. by apply Ho.
  - intros [m1 d1] [m2 d2] [Hm Hd]. cbn [fst snd] in Hm, Hd. subst m2. done.
Qed.
Lemma rel_rows_buf_try {V} (op : nat -> St -> V -> run (V * St * result unit)) m i b1 b2 :
  (forall j v b1 b2, m !! j = Some v -> S b1 b2 -> rel keeps_res (op (i + j) b1 v) (op (i + j) b2 v)) -> S b1 b2 ->
  rel keeps_res (rows_buf_try_from i op b1 m) (rows_buf_try_from i op b2 m).
Proof.
  revert i b1 b2. induction m as [|v m IH]; intros i b1 b2 Ho Hs; [done|]. cbn [rows_buf_try_from]. eapply rel_bind.
  { pose proof (Ho 0 v b1 b2 eq_refl Hs) as Hr. rewrite Nat.add_0_r in Hr. exact Hr. }
  intros [[v1 c1] e1] [[v2 c2] e2] [[Hv Hc] He]. cbn [fst snd] in Hv, Hc, He. subst v2 e2. destruct e1 as [[]|]; [|done]. eapply rel_bind; [apply (IH _ c1 c2); [|done]|].
  - intros j w d1 d2 Hj Hd. replace (Datatypes.S i + j) with (i + Datatypes.S j) by lia. by apply Ho.
  - intros [[m1 d1] r1] [[m2 d2] r2] [[Hm Hd] Hr]. cbn [fst snd] in Hm, Hd, Hr. subst m2 r2. done.
Qed.
Lemma rel_rows_zip_buf_try {V W} (op : nat -> St -> V -> W -> run (V * St * result unit)) m o i b1 b2 :
  (forall j v w b1 b2, m !! j = Some v -> o !! j = Some w -> S b1 b2 -> rel keeps_res (op (i + j) b1 v w) (op (i + j) b2 v w)) -> S b1 b2 ->
  rel keeps_res (rows_zip_buf_try_from i op b1 m o) (rows_zip_buf_try_from i op b2 m o).
Proof.
  revert i o b1 b2. induction m as [|v m IH]; intros i o b1 b2 Ho Hs; [done|]. destruct o as [|w o]; [done|]. cbn [rows_zip_buf_try_from]. eapply rel_bind.
  { pose proof (Ho 0 v w b1 b2 eq_refl eq_refl Hs) as Hr. rewrite Nat.add_0_r in Hr. exact Hr. }
  intros [[v1 c1] e1] [[v2 c2] e2] [[Hv Hc] He]. cbn [fst snd] in Hv, Hc, He. subst v2 e2. destruct e1 as [[]|]; [|done]. eapply rel_bind; [apply (IH _ _ c1 c2); [|done]|].
  - intros j x y d1 d2 Hj Hj' Hd. replace (Datatypes.S i + j) with (i + Datatypes.S j) by lia. by apply Ho.
  - intros [[m1 d1] r1] [[m2 d2] r2] [[Hm Hd] Hr]. cbn [fst snd] in Hm, Hd, Hr. subst m2 r2. done.
Qed.
Lemma rel_transform_from {V W} (op : nat -> St -> V -> run (W * St)) m i b1 b2 :
  (forall j v b1 b2, m !! j = Some v -> S b1 b2 -> rel keeps (op (i + j) b1 v) (op (i + j) b2 v)) -> S b1 b2 ->
  rel keeps (transform_vec_from i op b1 m) (transform_vec_from i op b2 m) /\ rel keeps (transform_array_from i op b1 m) (transform_array_from i op b2 m).
Proof.
  revert i b1 b2. induction m as [|v m IH]; intros i b1 b2 Ho Hs; [done|]. cbn [transform_vec_from transform_array_from].
  assert (Hn : forall j w d1 d2, m !! j = Some w -> S d1 d2 -> rel keeps (op (Datatypes.S i + j) d1 w) (op (Datatypes.S i + j) d2 w)).
  { intros j w d1 d2 Hj Hd. replace (Datatypes.S i + j) with (i + Datatypes.S j) by lia. by apply Ho. }
  assert (Hop : forall b1 b2, S b1 b2 -> rel keeps (op i b1 v) (op i b2 v)).
  { intros d1 d2 Hd. pose proof (Ho 0 v d1 d2 eq_refl Hd) as Hr. rewrite Nat.add_0_r in Hr. exact Hr. }
  split.
  - eapply rel_bind; [by apply IH|]. intros [m1 d1] [m2 d2] [Hm Hd]. cbn [fst snd] in Hm, Hd. subst m2. eapply rel_bind; [by apply Hop|].
    intros [v1 c1] [v2 c2] [Hv Hc]. cbn [fst snd] in Hv, Hc. subst v2. done.
  - eapply rel_bind; [by apply Hop|]. intros [v1 c1] [v2 c2] [Hv Hc]. cbn [fst snd] in Hv, Hc. subst v2. eapply rel_bind; [by apply IH|].
    intros [m1 d1] [m2 d2] [Hm Hd]. cbn [fst snd] in Hm, Hd. subst m2. done.
Qed.
Lemma rel_transform {V W} k (op : nat -> St -> V -> run (W * St)) m b1 b2 :
  (forall j v b1 b2, m !! j = Some v -> S b1 b2 -> rel keeps (op j b1 v) (op j b2 v)) -> S b1 b2 -> rel keeps (transform k op b1 m) (transform k op b2 m).
Proof. intros Ho Hs. destruct (rel_transform_from op m 0 b1 b2 Ho Hs). by destruct k. Qed.
End rows.
Lemma rel_transform_res {St V W} (S : St -> St -> Prop) k (op : nat -> St -> V -> run (W * St * result unit)) m b1 b2 :
  (forall j v b1 b2, m !! j = Some v -> S b1 b2 -> rel (keeps_res S) (op j b1 v) (op j b2 v)) -> S b1 b2 ->
  rel (keeps_res S) (transform_res k op b1 m) (transform_res k op b2 m).
Proof.
  intros Ho Hs. set (S' := fun x y : St * option error_reason => S (fst x) (fst y) /\ snd x = snd y).
  assert (Hc : forall j v b1 b2, m !! j = Some v -> S' b1 b2 -> rel (keeps S') (converting op j b1 v) (converting op j b2 v)).
  { intros j v [d1 r1] [d2 r2] Hj [Hd Hr]. cbn [fst snd] in Hd, Hr. subst r2. unfold converting. eapply rel_bind; [by apply (Ho j v d1 d2)|].
    intros [[v1 c1] e1] [[v2 c2] e2] [[Hv Hcc] He]. cbn [fst snd] in Hv, Hcc, He. subst v2 e2. done. }
  assert (Hcase : forall r1 r2 : run (list W * (St * option error_reason)), rel (keeps S') r1 r2 -> rel (keeps_res S) ('(ws, (s, err)) ← r1; Done (ws, s, match err with None => Ok tt | Some e => Err e end))
    ('(ws, (s, err)) ← r2; Done (ws, s, match err with None => Ok tt | Some e => Err e end))).
  { intros r1 r2 Hr. eapply rel_bind; [exact Hr|]. intros [w1 [d1 o1]] [w2 [d2 o2]] [Hw [Hd Hq]]. cbn [fst snd] in Hw, Hd, Hq. subst w2 o2. done. }
  destruct (rel_transform_from S' (converting op) m 0 (b1, None) (b2, None) Hc (conj Hs eq_refl)). destruct k; by apply Hcase.
Qed.

(** The buffer which a row gets fits as well as the first one did. *)
Definition suits (b0 : buffer A) (b1 b2 : buffer A) : Prop := alike b1 b2 /\ is_fixed b1 = is_fixed b0.
Lemma clean_kind e i u b b0 (v : dvec A) : is_fixed b = is_fixed b0 -> clean e i u b0 v -> clean e i u b v.
Proof.
  intros Hk Hc. destruct u; try exact Hc; cbn [clean] in *.
  - destruct op; try exact Hc. by rewrite (buffer_fits_kind b b0 _ (Model_Vec.data v)).
  - destruct op; try exact Hc. by rewrite (buffer_fits_kind b b0 _ (Model_Vec.data v)).
Qed.
Lemma alike_fixed (b1 b2 : buffer A) : alike b1 b2 -> is_fixed b1 = is_fixed b2.
Proof. by destruct b1, b2. Qed.

Lemma keeps_suits {W} b0 (x y : W * buffer A) : keeps (suits b0) x y -> same_vb x y.
Proof. intros [Hx [Hy _]]. by split. Qed.
Lemma keeps_res_suits {W} b0 (x y : W * buffer A * result unit) : keeps_res (suits b0) x y -> same_vbr x y.
Proof. intros [Hx Hr]. split; [by apply keeps_suits in Hx|done]. Qed.

Theorem matrix_same e fits k u b1 b2 (m : list (dvec A)) : (forall i v, m !! i = Some v -> clean e i u b1 v) -> alike b1 b2 ->
  same_answer (matrix_with_buffer e fits k u b1 m) (matrix_with_buffer e fits k u b2 m).
Proof.
  intros Hc Hb. apply same_answer_rel. destruct u; cbn [matrix_with_buffer]; try done.
  - eapply (rel_bind same_vb); [|intros [m1 c1] [m2 c2] [Hm Hcc]; cbn [fst snd] in *; subst m2; done]. unfold mat_buffered.
    apply (rel_transform alike); [|done]. intros j v d1 d2 Hj Hd. apply rel_vec_buffered; [|done].
    specialize (Hc j v Hj). by destruct op.
  - unfold mat_fallible. apply (rel_transform_res alike); [|done]. intros j v d1 d2 _ Hd. by apply rel_vec_fallible.
  - eapply (rel_bind same_vb); [|intros [m1 c1] [m2 c2] [Hm Hcc]; cbn [fst snd] in *; subst m2; done]. unfold mat_inplace_b, rows_buf.
    destruct (match op with Interpft _ => true | _ => false end) eqn:Eop.
    + eapply rel_mono; [intros x y; apply (keeps_suits b1)|]. apply (rel_rows_buf (suits b1)); [|done]. intros j v d1 d2 Hj [Hd Hk].
      assert (Hcl : clean e j (W_inplace_b op) d1 v) by (apply (clean_kind e j _ d1 b1); [done|by apply Hc]).
      pose proof (rel_vec_inplace_b e fits op (0 + j) d1 d2 v Hcl Hd) as Hr. destruct op; try done.
      destruct (vec_inplace_b e fits _ (0 + j) d1 v) as [[w1 c1]|] eqn:E1, (vec_inplace_b e fits _ (0 + j) d2 v) as [[w2 c2]|] eqn:E2; cbn [rel] in Hr |- *; try done.
      destruct Hr as [Hw Hcc]. split; [done|]. split; [done|]. cbn [fst snd]. rewrite <- Hk. by apply interpft_kind in E1.
    + apply (rel_rows_buf alike); [|done]. intros j v d1 d2 Hj Hd. apply rel_vec_inplace_b; [|done]. specialize (Hc j v Hj). by destruct op.
  - unfold mat_resample, rows_buf_try. eapply rel_mono; [intros x y; apply (keeps_res_suits b1)|]. apply (rel_rows_buf_try (suits b1)); [|done].
    intros j v d1 d2 Hj [Hd Hk]. assert (Hcl : clean e j (W_resample op) d1 v) by (apply (clean_kind e j _ d1 b1); [done|by apply Hc]).
    pose proof (rel_vec_resample e op (0 + j) d1 d2 v Hcl Hd) as Hr.
    destruct (vec_resample e op (0 + j) d1 v) as [[[w1 c1] r1]|] eqn:E1, (vec_resample e op (0 + j) d2 v) as [[[w2 c2] r2]|] eqn:E2; cbn [rel] in Hr |- *; try done.
    destruct Hr as [[Hw Hcc] Hres]. split; [|done]. split; [done|]. split; [done|]. cbn [fst snd]. rewrite <- Hk.
    destruct op; cbn [vec_resample] in E1; [by apply interpolatei_kind in E1|by apply interpolate_kind in E1].
  - unfold mat_convolve_vector, rows_buf_try. apply (rel_rows_buf_try alike); [|done]. intros j v d1 d2 _ Hd. by apply rel_convolve_signal.
Qed.
Theorem matrix_correlate_same e b1 b2 (m o : list (dvec A)) : Forall wf m -> alike b1 b2 -> same_answer (mat_correlate e b1 m o) (mat_correlate e b2 m o).
Proof.
  intros Hw Hb. apply same_answer_rel. unfold mat_correlate, rows_zip_buf_try. apply (rel_rows_zip_buf_try alike); [|done].
  intros j v w d1 d2 Hj _ Hd. apply rel_correlate; [done|]. by apply (Forall_lookup_1 _ _ _ _ Hw Hj).
Qed.

(** ** Convolution with a matrix of impulse responses *)
Lemma rel_mat_points {P} (zero : P) add mul (ms is : list (list P)) c f d1 d2 : length d1 = length d2 ->
  rel (fun x y => x = y /\ length x = length d1) (convolve_mat_points zero add mul ms is c f d1) (convolve_mat_points zero add mul ms is c f d2).
Proof.
  intros Hd. unfold convolve_mat_points. rewrite <- Hd. eapply rel_mono; [|apply (rel_fill (fun i => convolve_mat_iteration zero add mul ms is i c f) (length d1) d1 d2 (fun _ => False) (length d1)); by apply agree_none].
  intros x y Hx. split; [|by destruct Hx]. apply (agree_eq _ _ _ _ Hx). intros i Hi. by left.
Qed.
Lemma whole_splice_len n (T1 T2 : list A) x : length T1 = n /\ length T2 = n -> length x = n -> rel (fun y1 y2 => y1 = y2 /\ length y1 = n) (splice T1 0 x) (splice T2 0 x).
Proof.
  intros HT Hx. pose proof (whole_splice n T1 T2 x HT Hx) as Hr. destruct (splice T1 0 x) as [y1|] eqn:E1, (splice T2 0 x) as [y2|]; cbn [rel] in *; try done. split; [done|].
  apply splice_len in E1. destruct HT. lia.
Qed.
(** Without an error all of the target is overwritten. *)
Lemma rel_convolve_mat (rows imp : list (dvec A)) T1 T2 n : length T1 = n -> length T2 = n -> (forall x, hd_error rows = Some x -> len x = n) ->
  rel (fun x y => (length (fst x) = n /\ length (fst y) = n) /\ snd x = snd y /\ (snd x = Ok tt -> fst x = fst y)) (convolve_mat rows imp T1) (convolve_mat rows imp T2).
Proof.
  intros H1' H2' Hx. unfold convolve_mat. destruct imp as [|h imp]; [done|]. destruct rows as [|x rows]; [done|]. specialize (Hx x eq_refl).
  destruct (negb _); [done|]. destruct (existsb _ _); [done|]. destruct (existsb _ _); [done|]. apply rel_same. intros [[[os oe] fl] cl] _. same. same.
  pose proof (agree_none _ _ _ (conj H1' H2')) as Ha. destruct (is_complex x).
  - same. same. eapply rel_bind; [apply rel_slice, Ha|]. intros d1 d2 [_ Hd]. rewrite Nat.sub_0_r, Hx in Hd. eapply rel_bind; [apply rel_to_complex, Hd|].
    intros c1 c2 [Hm (L1 & L2 & _)]. eapply rel_bind; [apply rel_mat_points; lia|]. intros y ? [<- Hy].
    eapply rel_bind; [apply (whole_splice_len n); [done|rewrite complex_to_array_length; lia]|]. intros t ? [<- Ht]. done.
  - same. same. eapply rel_bind; [apply rel_slice, Ha|]. intros d1 d2 [_ (L1 & L2 & _)]. rewrite Nat.sub_0_r, Hx in L1, L2.
    eapply rel_bind; [apply rel_mat_points; lia|]. intros y ? [<- Hy]. eapply rel_bind; [apply (whole_splice_len n); [done|lia]|]. intros t ? [<- Ht]. done.
Qed.
Lemma rel_mat_loop (rows : list (dvec A)) rl imps : (forall x, hd_error rows = Some x -> len x = rl) -> forall n col N T1 T2, agree N (fun i => i < n * rl) T1 T2 ->
  rel (fun x y => snd x = snd y /\ (snd x = Ok tt -> agree N (fun i => i < (n + Nat.min (length imps) col) * rl) (fst x) (fst y)))
    (mat_convolve_loop rows rl imps n col T1) (mat_convolve_loop rows rl imps n col T2).
Proof.
  intros Hr. induction imps as [|h imps IH]; intros n col N T1 T2 Ha.
  { destruct col; cbn [mat_convolve_loop rel]; (split; [done|]); intros _; cbn [length]; by rewrite Nat.add_0_r. }
  destruct col as [|col]; cbn [mat_convolve_loop]; [split; [done|]; intros _; cbn [fst]; rewrite Nat.min_0_r, Nat.add_0_r; exact Ha|].
  eapply rel_bind; [apply rel_slice, Ha|]. intros p1 p2 [Hb (L1 & L2 & _)].
  assert (Hrl : (n + 1) * rl - n * rl = rl) by nia. rewrite Hrl in L1, L2.
  eapply rel_bind; [by apply (rel_convolve_mat rows h p1 p2 rl)|]. intros [q1 r1] [q2 r2] ((Q1 & Q2) & Hres & Hq). cbn [fst snd] in *. subst r2.
  destruct r1 as [[]|err].
  - specialize (Hq eq_refl). subst q2. eapply rel_bind; [apply (rel_splice N rl _ (fun _ => True) T1 T2 (n * rl) q1 q1 Ha); by split_and!|]. intros y1 y2 [_ Hy].
    cbn [length]. eapply rel_mono; [|apply (IH (n + 1) col N y1 y2)].
    + intros x y [Hx1 Hx2]. split; [done|]. intros Hok. specialize (Hx2 Hok). revert Hx2. apply agree_mono. intros i _ Hi.
      replace (n + 1 + Nat.min (length imps) col) with (n + Nat.min (Datatypes.S (length imps)) (Datatypes.S col)) by lia. exact Hi.
    + revert Hy. apply agree_mono. intros i Hi Hlt. destruct (Nat.leb_spec (n * rl) i) as [G1|G1], (Nat.ltb_spec i (n * rl + rl)) as [G2|G2]; cbn [andb]; try done. nia.
  - eapply rel_bind; [apply (rel_splice N rl _ (fun _ => False) T1 T2 (n * rl) q1 q2 Ha); by split_and!|]. intros y1 y2 _. done.
Qed.
(** Enough impulse responses *)
Theorem matrix_convolve_same b1 b2 (m : list (dvec A)) imps : length m <= length imps -> alike b1 b2 ->
  same_answer (mat_convolve_signal b1 m imps) (mat_convolve_signal b2 m imps).
Proof.
  intros Hi Hb. apply same_answer_rel. unfold mat_convolve_signal. cbv zeta. set (rl := row_len m). eapply rel_bind; [by apply rel_borrow|]. intros T1 T2 HT.
  eapply rel_bind; [apply (rel_mat_loop m rl imps) with (N := rl * length m)|].
  - intros x Hx. unfold rl. destruct m; [done|]. by injection Hx as ->.
  - destruct HT as [L1 L2]. split_and!; [done|done|]. intros i _ Hlt. lia.
  - intros [t1 r1] [t2 r2] [Hr Hok]. cbn [fst snd] in *. subst r2. destruct r1 as [[]|]; [|split; [split; [done|]|done]; by apply give_back_alike].
    specialize (Hok eq_refl). assert (t1 = t2) as <- by (apply (agree_eq _ _ _ _ Hok); intros i Hlt; nia).
    same. split; [split; [done|]|done]. by apply give_back_alike.
Qed.

End all.

(** ** Foreign functions *)
Section foreign.
Context {A : Type} `{Num A} `{Flt A} `{Rem A} `{Trig A} `{Math A} `{F : Fft A} `{RA : Rounding A} `{IsNan A}.
Lemma rel_foreign (r1 r2 : run (ivec A * Z)) : rel (fun p q => i_vec (fst p) = i_vec (fst q) /\ alike (i_buf (fst p)) (i_buf (fst q)) /\ snd p = snd q) r1 r2 -> same_foreign r1 r2.
Proof. by destruct r1 as [[]|], r2 as [[]|]. Qed.
Lemma convert_same (op : buffer A -> dvec A -> run (dvec A * buffer A * result unit)) (v : dvec A) b1 b2 : rel same_vbr (op b1 v) (op b2 v) ->
  same_foreign (convert_vec op (IVec v b1)) (convert_vec op (IVec v b2)) /\ same_foreign (trans_vec op (IVec v b1)) (trans_vec op (IVec v b2)).
Proof. intros Hr. split; apply rel_foreign; unfold convert_vec, trans_vec; cbn [i_buf i_vec]; (vbr ltac:(exact Hr)); done. Qed.
Lemma same_inf (op : dvec A -> run (dvec A)) b1 b2 v : alike b1 b2 -> rel same_vbr (inf op b1 v) (inf op b2 v).
Proof. intros Hb. unfold inf. same. done. Qed.
Lemma same_inf_b (op : buffer A -> dvec A -> run (dvec A * buffer A)) b1 b2 v : rel same_vb (op b1 v) (op b2 v) -> rel same_vbr (inf_b op b1 v) (inf_b op b2 v).
Proof. intros Hr. unfold inf_b. vb ltac:(exact Hr). done. Qed.
Lemma same_no_buf (op : dvec A -> run (dvec A * result unit)) b1 b2 v : alike b1 b2 -> rel same_vbr (no_buf op b1 v) (no_buf op b2 v).
Proof. intros Hb. unfold no_buf. apply rel_same. intros [w res] _. done. Qed.
Theorem foreign_same e fits c (v : dvec A) b1 b2 : clean_foreign e c (IVec v b1) -> alike b1 b2 ->
  same_foreign (foreign_call e fits c (IVec v b1)) (foreign_call e fits c (IVec v b2)).
Proof.
  intros Hc Hb. destruct c; cbn [foreign_call clean_foreign i_buf i_vec] in *.
  - destruct op; try (apply convert_same, same_inf, Hb). destruct f; apply convert_same, same_inf, Hb.
  - apply convert_same, same_inf, Hb.
  - apply convert_same, same_no_buf, Hb.
  - apply convert_same. destruct Hc. by apply rel_zero_pad.
  - apply convert_same, same_inf_b. by apply rel_zero_interleave.
  - apply convert_same, same_inf, Hb.
  - apply convert_same, same_inf, Hb.
  - apply convert_same, same_inf_b. by apply rel_vec_buffered.
  - apply convert_same. by apply rel_vec_fallible.
  - apply convert_same, same_inf_b. by apply rel_vec_buffered.
  - apply convert_same. by apply rel_vec_fallible.
  - apply convert_same, same_inf, Hb.
  - apply convert_same, same_inf_b. by apply rel_vec_buffered.
  - apply convert_same. by apply rel_vec_fallible.
  - apply convert_same, same_inf_b. by apply rel_vec_inplace_b.
  - apply convert_same, same_no_buf, Hb.
  - apply convert_same, same_no_buf, Hb.
  - apply convert_same. by apply rel_correlate.
  - apply convert_same. by apply rel_convolve_signal.
  - apply convert_same, same_inf_b. by apply rel_vec_inplace_b.
  - apply convert_same, same_inf_b. by apply rel_vec_inplace_b.
  - apply convert_same. by apply rel_vec_resample.
  - apply convert_same. by apply rel_vec_resample.
  - apply convert_same. by apply rel_vec_resample.
  - apply convert_same. by apply rel_vec_resample.
Qed.
End foreign.
