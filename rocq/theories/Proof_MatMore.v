(** Matrices: failing operations, matrices of equal rows, the Fourier transform of all rows. *)
From Verif Require Export Proof_MatOps Proof_FftR Proof_OverlapV.
From Verif Require Import Proof_ConvSimdOps.
From Verif Require Import Model_MatOps.
Local Open Scope nat_scope.

(** ** Methods which refuse *)
Section refusing.
Context {A : Type} `{Num A} (e : env).
Definition refusal (op : binary) (v o : dvec A) : run (option error_reason) :=
  match op with
  | Add | Sub | Div | Mul =>
      Done (if negb (len v =? len o) then Some InputMustHaveTheSameSize else if meta_disagree v o then Some InputMetaDataMustAgree else None)
  | _ =>
      rest ← umod (len v) (len o);
      Done (if negb (rest =? 0) then Some InvalidArgumentLength else if meta_disagree v o then Some InputMetaDataMustAgree else None)
  end.
Lemma binary_op_no_error r addr s sched f g (v o w : dvec A) err : (len v =? len o) = true -> meta_disagree v o = false ->
  binary_op r addr s sched f g v o <> Done (w, Err err).
Proof.
  intros H1 H2 E. unfold binary_op in E. rewrite H1, H2 in E. cbn [negb] in E.
  repeat match type of E with
  | (let '(_, _) := ?p in _) = _ => destruct p
  | _ => apply bind_Done_inv in E as (? & _ & E)
  end. done.
Qed.
Lemma binary_complex_op_no_error r addr s sched f g (v o w : dvec A) err : (len v =? len o) = true -> meta_disagree v o = false ->
  binary_complex_op r addr s sched f g v o <> Done (w, Err err).
Proof.
  intros H1 H2 E. unfold binary_complex_op in E. rewrite H1, H2 in E. cbn [negb] in E.
  repeat match type of E with
  | (let '(_, _) := ?p in _) = _ => destruct p
  | _ => apply bind_Done_inv in E as (? & _ & E)
  end. done.
Qed.
Lemma binary_smaller_op_no_error r s sched g (v o w : dvec A) err : umod (len v) (len o) = Done 0 -> meta_disagree v o = false ->
  binary_smaller_op r s sched g v o <> Done (w, Err err).
Proof.
  intros H1 H2 E. unfold binary_smaller_op in E. rewrite H1, bind_Done, H2 in E. cbn [negb Nat.eqb] in E.
  repeat match type of E with
  | (let '(_, _) := ?p in _) = _ => destruct p
  | _ => apply bind_Done_inv in E as (? & _ & E)
  end. done.
Qed.
Lemma binary_smaller_complex_op_no_error r s sched g (v o w : dvec A) err : umod (len v) (len o) = Done 0 -> meta_disagree v o = false ->
  binary_smaller_complex_op r s sched g v o <> Done (w, Err err).
Proof.
  intros H1 H2 E. unfold binary_smaller_complex_op in E. rewrite H1, bind_Done, H2 in E. cbn [negb Nat.eqb] in E.
  repeat match type of E with
  | (let '(_, _) := ?p in _) = _ => destruct p
  | _ => apply bind_Done_inv in E as (? & _ & E)
  end. done.
Qed.
Lemma vec_binary_refuses op i (v o w : dvec A) err : vec_binary e op i v o = Done (w, Err err) <-> w = v /\ refusal op v o = Done (Some err).
Proof.
  destruct op; cbn [vec_binary refusal];
    unfold vadd, vsub, vmul, vdiv, add_smaller, sub_smaller, mul_smaller, div_smaller.
  1-4: destruct (len v =? len o) eqn:E1; cbn [negb];
    [destruct (meta_disagree v o) eqn:E2; [|try (destruct (is_complex v)); (split; [intros E; exfalso; revert E; match goal with |- binary_op _ _ _ _ _ _ _ _ = _ -> _ => exact (binary_op_no_error _ _ _ _ _ _ _ _ _ _ E1 E2) | _ => exact (binary_complex_op_no_error _ _ _ _ _ _ _ _ _ _ E1 E2) end | by intros [_ ?]])]|];
    try (unfold binary_op; rewrite E1; cbn [negb]; rewrite ?E2); (split; [by intros [= <- <-] | by intros [-> [= ->]]]).
  all: destruct (umod (len v) (len o)) as [rest|] eqn:E1; [|unfold binary_smaller_op; rewrite ?E1; cbn; split; [done | by intros [_ ?]]];
    rewrite ?bind_Done; destruct (rest =? 0) eqn:E3; [apply Nat.eqb_eq in E3 as ->|]; cbn [negb];
    [destruct (meta_disagree v o) eqn:E2;
      [|try (destruct (is_complex v)); (split; [intros E; exfalso; revert E; match goal with |- binary_smaller_op _ _ _ _ _ _ = _ -> _ => exact (binary_smaller_op_no_error _ _ _ _ _ _ _ _ E1 E2) | _ => exact (binary_smaller_complex_op_no_error _ _ _ _ _ _ _ _ E1 E2) end | by intros [_ ?]])]|];
    try (unfold binary_smaller_op; rewrite E1, bind_Done, ?E3; cbn [negb Nat.eqb]; rewrite ?E2); (split; [by intros [= <- <-] | by intros [-> [= ->]]]).
Qed.
Lemma refusal_same op (v v' o o' : dvec A) : len v = len v' -> is_complex v = is_complex v' -> vdomain v = vdomain v' -> delta v = delta v' ->
  len o = len o' -> is_complex o = is_complex o' -> vdomain o = vdomain o' -> delta o = delta o' -> refusal op v o = refusal op v' o'.
Proof.
  intros E1 E2 E3 E4 F1 F2 F3 F4. assert (meta_disagree v o = meta_disagree v' o') as Em. { unfold meta_disagree. by rewrite E2, E3, E4, F2, F3, F4. }
  unfold refusal. by rewrite E1, F1, Em.
Qed.

Lemma tried_first (f : nat -> dvec A -> run (dvec A * result unit)) m m' err :
  (forall i v w x, m !! i = Some v -> f i v = Done (w, Err x) -> w = v) ->
  (forall i v x, m !! i = Some v -> f i v = Done (v, Err x) -> forall u, m !! 0 = Some u -> f 0 u = Done (u, Err x)) ->
  tried_rows f m m' (Err err) -> m' = m.
Proof.
  intros H1 H2 (L & k & Hk & Hb & (v & w & Hv & Hw & E) & Hr). pose proof (H1 _ _ _ _ Hv E) as ->.
  destruct k as [|k].
  - apply list_eq. intros [|i]; [congruence|]. apply Hr. lia.
  - destruct (lookup_lt_is_Some_2 m 0) as [u Hu]; [destruct m; [done|cbn; lia]|].
    destruct (Hb 0 u ltac:(lia) Hu) as (w & _ & E'). by rewrite (H2 _ _ _ Hv E u Hu) in E'.
Qed.
Lemma uniform_vec_unchanged op (m m' : matrix A) o err : uniform m -> mat_binary_vec e op m o = Done (m', Err err) -> m' = m.
Proof.
  intros Hu E. apply rows_try_spec in E. eapply tried_first, E; cbn.
  - intros i v w x _ E'. by apply vec_binary_refuses in E' as [-> _].
  - intros i v x Hv E' u Hu0. apply vec_binary_refuses in E' as [_ E']. apply vec_binary_refuses. split; [done|]. rewrite <- E'.
    destruct (Hu u v) as (U1 & U2 & U3 & U4); [by eapply elem_of_list_lookup_2 | by eapply elem_of_list_lookup_2|]. by apply refusal_same.
Qed.
Lemma uniform_mat_unchanged op (m m' o : matrix A) err : uniform m -> uniform o -> mat_binary e op m o = Done (m', Err err) -> m' = m.
Proof.
  intros Hu Ho E. apply rows_zip_try_spec in E. eapply tried_first, E; unfold paired; cbn.
  - intros i v w x _ E'. destruct (o !! i); [|done]. by apply vec_binary_refuses in E' as [-> _].
  - intros i v x Hv E' u Hu0. destruct (o !! i) as [oi|] eqn:Eo; [|done]. apply vec_binary_refuses in E' as [_ E'].
    destruct (lookup_lt_is_Some_2 o 0) as [o0 Ho0]; [apply lookup_lt_Some in Eo; lia|]. rewrite Ho0. apply vec_binary_refuses. split; [done|]. rewrite <- E'.
    destruct (Hu u v) as (U1 & U2 & U3 & U4); [by eapply elem_of_list_lookup_2 | by eapply elem_of_list_lookup_2|].
    destruct (Ho o0 oi) as (O1 & O2 & O3 & O4); [by eapply elem_of_list_lookup_2 | by eapply elem_of_list_lookup_2|]. by apply refusal_same.
Qed.
End refusing.

Lemma cplx_same {A} (v : dvec A) c c' : cplx v c -> cplx v c' -> c = c'.
Proof.
  intros [_ H1] [_ H2]. rewrite H1 in H2. injection H2 as E. rewrite <- (pairs_of_complex_to_array c), <- (pairs_of_complex_to_array c'). by rewrite E.
Qed.

(** ** A condition on the buffer which all rows keep *)
Section invariant.
Context {V W St : Type}.
Implicit Type f : nat -> St -> V -> run (W * St).
Definition keeps (P : St -> Prop) (good : nat -> V -> W -> Prop) f (m : list V) :=
  forall i v b, m !! i = Some v -> P b -> exists w b', f i b v = Done (w, b') /\ P b' /\ good i v w.
Definition all_good (good : nat -> V -> W -> Prop) (m : list V) (m' : list W) :=
  length m' = length m /\ forall i v, m !! i = Some v -> exists w, m' !! i = Some w /\ good i v w.
Lemma all_good_cons (good : nat -> V -> W -> Prop) v m w m' : good 0 v w -> all_good (fun i => good (S i)) m m' -> all_good good (v :: m) (w :: m').
Proof. intros Hg [L H]. split; [cbn; lia|]. intros [|i] u Hu; [injection Hu as <-; by exists w|]. apply (H i u Hu). Qed.
Lemma transform_array_keeps P m : forall (good : nat -> V -> W -> Prop) f i b, keeps P good (fun j => f (i + j)) m -> P b ->
  exists m' b', transform_array_from i f b m = Done (m', b') /\ P b' /\ all_good good m m'.
Proof.
  induction m as [|v m IH]; intros good f i b Hk Hb; [by exists [], b|].
  destruct (Hk 0 v b eq_refl Hb) as (w & b1 & E & Hb1 & Hg). rewrite Nat.add_0_r in E. cbn. rewrite E, bind_Done.
  destruct (IH (fun j => good (S j)) f (S i) b1) as (m' & b2 & E2 & Hb2 & Hg2).
  { intros j u b0 Hu Hb0. destruct (Hk (S j) u b0 Hu Hb0) as (w0 & b0' & E0 & ? & ?). exists w0, b0'. by rewrite Nat.add_succ_comm. }
  { done. }
  exists (w :: m'), b2. rewrite E2, bind_Done. split; [done|]. split; [done|]. by apply all_good_cons.
Qed.
Lemma transform_vec_keeps P m : forall (good : nat -> V -> W -> Prop) f i b, keeps P good (fun j => f (i + j)) m -> P b ->
  exists m' b', transform_vec_from i f b m = Done (m', b') /\ P b' /\ all_good good m m'.
Proof.
  induction m as [|v m IH]; intros good f i b Hk Hb; [by exists [], b|].
  destruct (IH (fun j => good (S j)) f (S i) b) as (m' & b1 & E1 & Hb1 & Hg1).
  { intros j u b0 Hu Hb0. destruct (Hk (S j) u b0 Hu Hb0) as (w0 & b0' & E0 & ? & ?). exists w0, b0'. by rewrite Nat.add_succ_comm. }
  { done. }
  destruct (Hk 0 v b1 eq_refl Hb1) as (w & b2 & E & Hb2 & Hg). rewrite Nat.add_0_r in E. cbn. rewrite E1, bind_Done, E, bind_Done.
  exists (w :: m'), b2. split; [done|]. split; [done|]. by apply all_good_cons.
Qed.
Lemma transform_keeps k P good f m b : keeps P good f m -> P b -> exists m' b', transform k f b m = Done (m', b') /\ P b' /\ all_good good m m'.
Proof. destruct k; [apply (transform_vec_keeps P m good f 0) | apply (transform_array_keeps P m good f 0) ..]. Qed.
End invariant.
Section invariant_try.
Context {V St : Type}.
Lemma rows_buf_try_keeps (P : St -> Prop) m : forall (good : nat -> V -> V -> Prop) (f : nat -> St -> V -> run (V * St * result unit)) i b,
  (forall j v b, m !! j = Some v -> P b -> exists w b', f (i + j) b v = Done (w, b', Ok tt) /\ P b' /\ good j v w) -> P b ->
  exists m' b', rows_buf_try_from i f b m = Done (m', b', Ok tt) /\ P b' /\ all_good good m m'.
Proof.
  induction m as [|v m IH]; intros good f i b Hk Hb; [by exists [], b|].
  destruct (Hk 0 v b eq_refl Hb) as (w & b1 & E & Hb1 & Hg). rewrite Nat.add_0_r in E. cbn. rewrite E, bind_Done.
  destruct (IH (fun j => good (S j)) f (S i) b1) as (m' & b2 & E2 & Hb2 & Hg2).
  { intros j u b0 Hu Hb0. destruct (Hk (S j) u b0 Hu Hb0) as (w0 & b0' & E0 & ? & ?). exists w0, b0'. by rewrite Nat.add_succ_comm. }
  { done. }
  exists (w :: m'), b2. rewrite E2, bind_Done. split; [done|]. split; [done|]. by apply all_good_cons.
Qed.
End invariant_try.

(** ** The transform and its inverse, with any buffers in between *)
Section fft.
Context `{F : Fft R} (HF : computes_dft).
Let Hlf : forall c, length (fft_forward c) = length c. Proof. intros c. destruct HF as (-> & _). apply dft_length. Qed.
Let Hli : forall c, length (fft_inverse c) = length c. Proof. intros c. destruct HF as (_ & -> & _). apply dft_length. Qed.
Lemma fft_ifft_any b (v : dvec R) c : cplx v c -> length c <> 1%nat -> vdomain v = Time -> typed v -> spare b (2 * fft_inplace_scratch_len (length c)) ->
  exists v1 b1, vfft b v = Done (v1, b1) /\ still_spare b b1 /\
    forall r addr s sched b2, reg_ok r -> elem_aligned r addr -> simd_fits r addr (len v) -> spare b2 (2 * fft_inplace_scratch_len (length c)) ->
    exists v2 b3, vifft r addr s sched b2 v1 = Done (v2, b3) /\ cplx v2 c /\ same_rest v v2 /\ still_spare b2 b3.
Proof using HF.
  intros Hv Hl1 Hd Ht Hb. destruct (fft_any Hlf b v c Hv Hd Ht Hb) as (v1 & b1 & X & E1 & HX & Rot & Hd1 & Hr1 & _ & Ht1 & _ & Hs).
  exists v1, b1. split; [done|]. split; [done|]. intros r addr s sched b2 Hr Ha Hf Hb2.
  assert (HlX : length X = length c). { destruct Rot as [E _]. by rewrite E, Hlf. }
  destruct (ifft_any Hli r addr s sched b2 v1 X Hr Ha) as (v2 & b3 & Y & E2 & HY & Rot2 & Hr2 & _ & _ & _ & _ & _ & Hs2).
  { by rewrite (len_rest v v1). } { done. } { by rewrite HlX. } { done. } { done. } { by rewrite HlX. }
  exists v2, b3. split_and!; try done; [|by apply same_rest_trans with v1].
  rewrite HlX in Rot2. assert (Ec : c = fft_inverse Y); [|by rewrite <- Ec in HY].
  destruct (decide (c = [])) as [->|Hne].
  { destruct Y; [|destruct Rot2 as [E _]; rewrite map_length, HlX in E; done]. by destruct HF as (_ & -> & _). }
  assert (Hn : length c <> 0%nat) by (by destruct c).
  assert (EY : Y = map (rscale (1 / INR (length c))) (fft_forward c)).
  { apply rotated_back with (length c / 2)%nat (length c - length c / 2)%nat (map (rscale (1 / INR (length c))) X).
    - by apply rotated_map.
    - exact Rot2.
    - intros E. apply (f_equal length) in E. rewrite map_length, Hlf in E. cbn in E. lia.
    - rewrite map_length, Hlf. apply Proof_FftR.halves. }
  destruct HF as (HF1 & HF2 & _). rewrite HF2, EY, HF1, dft_scale, (dft_dft (-1) 1) by (auto || done). symmetry. by apply scale_back.
Qed.
(** All rows of a matrix *)
Context `{Math R} `{RA : Rounding R}.
Definition row_ready (b : buffer R) (e : env) (i : nat) (v : dvec R) : Prop := exists c, cplx v c /\ length c <> 1%nat /\ vdomain v = Time /\ typed v /\
  spare b (2 * fft_inplace_scratch_len (length c)) /\ elem_aligned (e_reg e) (e_addr e i) /\ simd_fits (e_reg e) (e_addr e i) (len v).
Lemma mat_fft_ifft k e e' b (m : matrix R) : reg_ok (e_reg e') -> (forall i v, m !! i = Some v -> row_ready b e' i v) ->
  exists m1 b1 m2 b2, mat_buffered e k FFT b m = Done (m1, b1) /\ mat_buffered e' k IFFT b1 m1 = Done (m2, b2) /\ length m2 = length m /\
    forall i v c, m !! i = Some v -> cplx v c -> exists v2, m2 !! i = Some v2 /\ cplx v2 c /\ same_rest v v2.
Proof using HF.
  intros Hr Hrow.
  set (good1 := fun (i : nat) (v v1 : dvec R) => forall c, cplx v c -> forall r addr s sched b2, reg_ok r -> elem_aligned r addr -> simd_fits r addr (len v) ->
    spare b2 (2 * fft_inplace_scratch_len (length c)) -> exists v2 b3, vifft r addr s sched b2 v1 = Done (v2, b3) /\ cplx v2 c /\ same_rest v v2 /\ still_spare b2 b3).
  destruct (transform_keeps k (still_spare b) good1 (vec_buffered e FFT) m b) as (m1 & b1 & E1 & Hb1 & L1 & G1).
  { intros i v b0 Hv Hb0. destruct (Hrow i v Hv) as (c & Hc & Hc1 & Hd & Ht & Hsp & _). cbn [vec_buffered].
    destruct (fft_ifft_any b0 v c Hc Hc1 Hd Ht (Hb0 _ Hsp)) as (v1 & b0' & E & Hs & Hrest). exists v1, b0'. split; [exact E|].
    split; [intros n Hn; by apply Hs, Hb0|]. intros c' Hc'. assert (c' = c) as ->; [|exact Hrest].
    eapply cplx_same; eassumption. }
  { exact (fun _ h => h). }
  set (good2 := fun (i : nat) (v1 v2 : dvec R) => forall v c, m !! i = Some v -> cplx v c -> cplx v2 c /\ same_rest v v2).
  destruct (transform_keeps k (still_spare b1) good2 (vec_buffered e' IFFT) m1 b1) as (m2 & b2 & E2 & Hb2 & L2 & G2).
  { intros i v1 b0 Hv1 Hb0. cbn [vec_buffered]. destruct (lookup_lt_is_Some_2 m i) as [v Hv]. { rewrite <- L1. by eapply lookup_lt_Some. }
    destruct (Hrow i v Hv) as (c & Hc & Hc1 & Hd & Ht & Hsp & Ha & Hf). destruct (G1 i v Hv) as (v1' & Hv1' & Hg). rewrite Hv1 in Hv1'. injection Hv1' as <-.
    destruct (Hg c Hc (e_reg e') (e_addr e' i) (e_set e') (e_sched e' i 0) b0 Hr Ha Hf) as (v2 & b3 & E & Hc2 & Hr2 & Hs2). { by apply Hb0, Hb1. }
    exists v2, b3. split; [exact E|]. split; [intros n Hn; by apply Hs2, Hb0|]. intros v' c' Hv' Hc'. rewrite Hv in Hv'. injection Hv' as <-.
    assert (c' = c) as ->; [|done].
    eapply cplx_same; eassumption. }
  { exact (fun _ h => h). }
  exists m1, b1, m2, b2. split; [exact E1|]. split; [exact E2|]. split; [congruence|]. intros i v c Hv Hc.
  destruct (lookup_lt_is_Some_2 m1 i) as [v1 Hv1]. { rewrite L1. by eapply lookup_lt_Some. }
  destruct (G2 i v1 Hv1) as (v2 & Hv2 & Hg). exists v2. split; [done|]. by apply Hg.
Qed.
End fft.

(** ** Conversions without a buffer *)
Section stateless.
Context {V W : Type}.
Lemma transform_vec_stateless (f : V -> run W) m : forall i m', transform_vec_from i (fun _ (_ : unit) v => w ← f v; Done (w, tt)) tt m = Done (m', tt) <->
  each_row (fun _ => f) m m'.
Proof.
  induction m as [|v m IH]; intros i m'.
  - rewrite each_row_nil. cbn. split; [by intros [= <-] | by intros ->].
  - cbn. split.
    + intros E. apply bind_Done_inv in E as ([l []] & E1 & E). apply bind_Done_inv in E as ([w []] & E2 & [= <-]).
      apply bind_Done_inv in E2 as (w' & E2 & [= ->]). apply each_row_cons. split; [done|]. by apply (IH (S i)).
    + destruct m' as [|w m']; [by intros [? _]|]. intros E. apply each_row_cons in E as [E1 E2]. apply (IH (S i)) in E2. by rewrite E2, bind_Done, E1.
Qed.
Lemma transform_array_stateless (f : V -> run W) m : forall i m', transform_array_from i (fun _ (_ : unit) v => w ← f v; Done (w, tt)) tt m = Done (m', tt) <->
  each_row (fun _ => f) m m'.
Proof.
  induction m as [|v m IH]; intros i m'.
  - rewrite each_row_nil. cbn. split; [by intros [= <-] | by intros ->].
  - cbn. split.
    + intros E. apply bind_Done_inv in E as ([w []] & E2 & E). apply bind_Done_inv in E as ([l []] & E1 & [= <-]).
      apply bind_Done_inv in E2 as (w' & E2 & [= ->]). apply each_row_cons. split; [done|]. by apply (IH (S i)).
    + destruct m' as [|w m']; [by intros [? _]|]. intros E. apply each_row_cons in E as [E1 E2]. apply (IH (S i)) in E2. by rewrite E1, !bind_Done, E2.
Qed.
Lemma transform_stateless k (f : V -> run W) m m' :
  ('(m, _) ← transform k (fun _ (_ : unit) v => w ← f v; Done (w, tt)) tt m; Done m) = Done m' <-> each_row (fun _ => f) m m'.
Proof.
  transitivity (transform k (fun _ (_ : unit) v => w ← f v; Done (w, tt)) tt m = Done (m', tt)).
  - split; [intros E; by apply bind_Done_inv in E as ([l []] & E & [= ->]) | by intros ->].
  - destruct k; [apply transform_vec_stateless | apply transform_array_stateless ..].
Qed.
End stateless.

Section values.
Context {A : Type} `{Num A} `{Flt A} `{Rem A} `{Trig A} `{Math A} `{F : Fft A} `{RA : Rounding A} (e : env).
Lemma mat_inplace_rows op (m m' : matrix A) : op <> Diff_with_start -> op <> Cum_sum -> mat_inplace e op m = Done m' <-> each_row (vec_inplace e op) m m'.
Proof. intros N1 N2. destruct op; try done; apply rows_each_spec. Qed.
Lemma mat_inplace_diff op (m m' : matrix A) : op = Diff_with_start \/ op = Cum_sum -> mat_inplace e op m = Done m' <-> each_row (fun _ => diff) m m'.
Proof. intros [-> | ->]; apply rows_each_spec. Qed.
Lemma mat_conversion_rows k op (m m' : matrix A) : mat_conversion k op m = Done m' <-> each_row (fun _ => vec_conversion op) m m'.
Proof. apply transform_stateless. Qed.
Lemma mat_construct_rows k f (m : list (storage A)) : mat_construct k f m = Done (map f m).
Proof.
  apply (transform_stateless k (fun v => Done (f v))). split; [by rewrite map_length|]. intros i v Hv. exists (f v). split; [|done].
  change (map f m) with (f <$> m). by rewrite list_lookup_fmap, Hv.
Qed.
Lemma mat_sum_rows k op (m : matrix A) l : rows_ok k m -> mat_sum e k op m = Done l <-> each_row (vec_sum_op e op) m l.
Proof.
  intros Hk. unfold mat_sum. split.
  - intros E. apply bind_Done_inv in E as (x & E1 & E). apply rows_values_spec in E1. rewrite (values_of_ok k x m Hk (proj1 E1)) in E. by injection E as <-.
  - intros E. apply rows_values_spec in E as E1. rewrite E1, bind_Done. by rewrite (values_of_ok k l m Hk (proj1 E)).
Qed.
Lemma mat_stat_rows k op (m : matrix A) l : rows_ok k m -> mat_stat e k op m = Done l <-> each_row (vec_stat_op e op) m l.
Proof.
  intros Hk. unfold mat_stat. split.
  - intros E. apply bind_Done_inv in E as (x & E1 & E). apply rows_values_spec in E1. rewrite (values_of_ok k x m Hk (proj1 E1)) in E. by injection E as <-.
  - intros E. apply rows_values_spec in E as E1. rewrite E1, bind_Done. by rewrite (values_of_ok k l m Hk (proj1 E)).
Qed.
Lemma collected_length {V X} (f : nat -> V -> run (result X)) m l : collected f m (Ok l) -> length l = length m.
Proof. by intros [L _]. Qed.
Lemma collect_rows {X} k (f : nat -> dvec A -> run (result X)) m res : rows_ok k m ->
  (l ← rows_collect f m; results_of k l) = Done res <-> collected f m res.
Proof.
  intros Hk. split.
  - intros E. apply bind_Done_inv in E as (x & E1 & E). apply rows_collect_spec in E1. destruct x as [l|err]; [|by injection E as <-].
    unfold results_of in E. rewrite (values_of_ok k l m Hk (collected_length _ _ _ E1)), bind_Done in E. by injection E as <-.
  - intros E. apply rows_collect_spec in E as E1. rewrite E1, bind_Done. destruct res as [l|err]; [|done]. unfold results_of.
    by rewrite (values_of_ok k l m Hk (collected_length _ _ _ E)).
Qed.
Lemma mat_sum_panics k op (m : matrix A) : k = Matrix3xN \/ k = Matrix4xN -> length m = 2 -> mat_sum e k op m = Panicked.
Proof.
  intros Hk L. unfold mat_sum. destruct (rows_values (vec_sum_op e op) m) as [l|] eqn:E; [|done]. rewrite bind_Done. apply rows_values_spec in E.
  destruct E as [L' _]. destruct Hk as [-> | ->]; cbn [values_of]; unfold into_fixed_length; by rewrite L', L.
Qed.
Lemma mat_getter_rows op (m dst dst' : matrix A) : op = Get_real \/ op = Get_imag ->
  mat_getter e op m dst = Done dst' <-> each_row (fun i o => match m !! i with Some v => vec_getter e op i v o | None => Done o end) dst dst'.
Proof. intros [-> | ->]; apply rows_zip_each_spec. Qed.
Lemma mat_getter_imag op (m dst : matrix A) : op <> Get_real -> mat_getter e op m dst = mat_getter e Get_imag m dst.
Proof. by destruct op. Qed.
End values.
