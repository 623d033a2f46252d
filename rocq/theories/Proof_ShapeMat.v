(** The rows of a matrix stay alike. *)
From Verif Require Export Proof_Shape Proof_MatMore.
From Verif Require Import Model_MatOps.

Section alike.
Context {A : Type}.
Implicit Types (m : matrix A) (s : shape A).
Definition all_like s m := forall i v, m !! i = Some v -> shape_of v = s.
Lemma alike_lookup s m : alike s m <-> all_like s m.
Proof. unfold alike. by rewrite Forall_lookup. Qed.
Lemma order_onto k n i : i < n -> exists j, j < n /\ visiting k n j = i.
Proof. intros Hi. destruct k; [exists (n - 1 - i); cbn; unfold last_to_first; lia|exists i; by cbn ..]. Qed.

Lemma each_row_alike (f : nat -> dvec A -> run (dvec A)) g s m m' :
  (forall i v w, shape_of v = s -> f i v = Done w -> shape_of w = g s) -> alike s m -> each_row f m m' -> alike (g s) m'.
Proof.
  intros Hf Hm [L E]. apply alike_lookup. intros i w Hw.
  destruct (m !! i) as [v|] eqn:Hv; [|apply lookup_ge_None in Hv; apply lookup_lt_Some in Hw; lia].
  destruct (E i v Hv) as (w' & Hw' & Ef). rewrite Hw in Hw'. injection Hw' as <-. rewrite alike_lookup in Hm. exact (Hf i v w (Hm i v Hv) Ef).
Qed.
Lemma through_alike {St} k (f : nat -> St -> dvec A -> run (dvec A * St)) g s b m b' m' :
  (forall i b v w b', shape_of v = s -> f i b v = Done (w, b') -> shape_of w = g s) -> alike s m -> through (visiting k (length m)) f b m b' m' -> alike (g s) m'.
Proof.
  intros Hf Hm (L & bs & _ & _ & E). apply alike_lookup. intros i w Hw. rewrite alike_lookup in Hm.
  destruct (order_onto k (length m) i) as (j & Hj & <-); [apply lookup_lt_Some in Hw; lia|].
  destruct (E j Hj) as (v & w' & Hv & Hw' & Ef). rewrite Hw in Hw'. injection Hw' as <-. exact (Hf _ _ v w _ (Hm _ v Hv) Ef).
Qed.
Lemma through_all_alike {St} k (f : nat -> St -> dvec A -> run (dvec A * St * result unit)) g s b m b' m' :
  (forall i b v w b', shape_of v = s -> f i b v = Done (w, b', Ok tt) -> shape_of w = g s) -> alike s m ->
  through_all (visiting k (length m)) f b m b' m' (Ok tt) -> alike (g s) m'.
Proof.
  intros Hf Hm (L & bs & rs & _ & _ & E & R). apply alike_lookup. intros i w Hw. rewrite alike_lookup in Hm.
  destruct (order_onto k (length m) i) as (j & Hj & <-); [apply lookup_lt_Some in Hw; lia|].
  destruct (E j Hj) as (v & w' & Hv & Hw' & Ef). rewrite Hw in Hw'. injection Hw' as <-. rewrite (R j Hj) in Ef. exact (Hf _ _ v w _ (Hm _ v Hv) Ef).
Qed.
Lemma tried_through_alike {St} (f : nat -> St -> dvec A -> run (dvec A * St * result unit)) g s b m b' m' :
  (forall i b v w b', shape_of v = s -> f i b v = Done (w, b', Ok tt) -> shape_of w = g s) -> alike s m -> tried_through f b m b' m' (Ok tt) -> alike (g s) m'.
Proof.
  intros Hf Hm (L & bs & k & Hk & _ & E & -> & _). apply alike_lookup. intros i w Hw. rewrite alike_lookup in Hm.
  destruct (m !! i) as [v|] eqn:Hv; [|apply lookup_ge_None in Hv; apply lookup_lt_Some in Hw; lia].
  destruct (E i v) as (w' & Hw' & Ef); [by apply lookup_lt_Some in Hv|done|]. rewrite Hw in Hw'. injection Hw' as <-. exact (Hf _ _ v w _ (Hm _ v Hv) Ef).
Qed.
Lemma tried_rows_alike (f : nat -> dvec A -> run (dvec A * result unit)) g s m m' :
  (forall i v w, shape_of v = s -> f i v = Done (w, Ok tt) -> shape_of w = g s) -> alike s m -> tried_rows f m m' (Ok tt) -> alike (g s) m'.
Proof.
  intros Hf Hm (L & k & Hk & E & ->). apply alike_lookup. intros i w Hw. rewrite alike_lookup in Hm.
  destruct (m !! i) as [v|] eqn:Hv; [|apply lookup_ge_None in Hv; apply lookup_lt_Some in Hw; lia].
  destruct (E i v) as (w' & Hw' & Ef); [by apply lookup_lt_Some in Hv|done|]. rewrite Hw in Hw'. injection Hw' as <-. exact (Hf _ v w (Hm _ v Hv) Ef).
Qed.
(** With any result, if the shape stays the same *)
Lemma tried_rows_kept (f : nat -> dvec A -> run (dvec A * result unit)) s m m' res :
  (forall i v w res, shape_of v = s -> f i v = Done (w, res) -> shape_of w = s) -> alike s m -> tried_rows f m m' res -> alike s m'.
Proof.
  intros Hf Hm (L & k & Hk & E & R). apply alike_lookup. intros i w Hw. rewrite alike_lookup in Hm.
  destruct (m !! i) as [v|] eqn:Hv; [|apply lookup_ge_None in Hv; apply lookup_lt_Some in Hw; lia].
  destruct (Nat.lt_trichotomy i k) as [Hi|[->|Hi]].
  - destruct (E i v Hi Hv) as (w' & Hw' & Ef). rewrite Hw in Hw'. injection Hw' as <-. exact (Hf _ v w _ (Hm _ v Hv) Ef).
  - destruct res; [apply lookup_lt_Some in Hv; lia|]. destruct R as [(v' & w' & Hv' & Hw' & Ef) _].
    rewrite Hw in Hw'. injection Hw' as <-. exact (Hf _ v' w _ (Hm _ v' Hv') Ef).
  - destruct res; [apply lookup_lt_Some in Hv; lia|]. destruct R as [_ Rest]. rewrite (Rest i Hi), Hv in Hw. injection Hw as <-. exact (Hm i v Hv).
Qed.
Lemma tried_through_kept {St} (f : nat -> St -> dvec A -> run (dvec A * St * result unit)) s b m b' m' res :
  (forall i b v w b' res, shape_of v = s -> f i b v = Done (w, b', res) -> shape_of w = s) -> alike s m -> tried_through f b m b' m' res -> alike s m'.
Proof.
  intros Hf Hm (L & bs & k & Hk & _ & E & R). apply alike_lookup. intros i w Hw. rewrite alike_lookup in Hm.
  destruct (m !! i) as [v|] eqn:Hv; [|apply lookup_ge_None in Hv; apply lookup_lt_Some in Hw; lia].
  destruct (Nat.lt_trichotomy i k) as [Hi|[->|Hi]].
  - destruct (E i v Hi Hv) as (w' & Hw' & Ef). rewrite Hw in Hw'. injection Hw' as <-. exact (Hf _ _ v w _ _ (Hm _ v Hv) Ef).
  - destruct res; [apply lookup_lt_Some in Hv; lia|]. destruct R as [(v' & w' & Hv' & Hw' & Ef) _].
    rewrite Hw in Hw'. injection Hw' as <-. exact (Hf _ _ v' w _ _ (Hm _ v' Hv') Ef).
  - destruct res; [apply lookup_lt_Some in Hv; lia|]. destruct R as [_ Rest]. rewrite (Rest i Hi), Hv in Hw. injection Hw as <-. exact (Hm i v Hv).
Qed.
Lemma uniform_alike s m : alike s m -> uniform m.
Proof.
  rewrite alike_lookup. intros Hm v w Hv Hw. apply elem_of_list_lookup in Hv as [i Hv], Hw as [j Hw]. pose proof (Hm i v Hv) as E1. pose proof (Hm j w Hw) as E2.
  assert (E : shape_of v = shape_of w) by congruence. split_and!; [exact (f_equal sh_len E)|exact (f_equal sh_complex E)|exact (f_equal sh_dom E)|exact (f_equal sh_delta E)].
Qed.
End alike.

Section matrices.
Context {A : Type} `{Num A} `{Flt A} `{Rem A} `{Trig A} `{Math A} `{F : Fft A} `{RA : Rounding A}.
Implicit Types (m : matrix A) (s : shape A).
(** The shape belongs to one of the types of vectors. *)
Lemma typed_rows v s : sh_typed s -> shape_of v = s -> typed v.
Proof. by intros Ht <-. Qed.
Lemma mat_inplace_alike e op s m m' : op <> Diff_with_start -> op <> Cum_sum -> alike s m -> mat_inplace e op m = Done m' -> alike (inplace_shape op s) m'.
Proof.
  intros N1 N2 Hm E. apply mat_inplace_rows in E; [|done ..]. revert E. apply (each_row_alike _ (inplace_shape op)); [|done].
  intros i v w <-. apply inplace_shape_right.
Qed.
Lemma mat_diff_alike e op s m m' : op = Diff_with_start \/ op = Cum_sum -> alike s m -> mat_inplace e op m = Done m' -> alike (inplace_shape Diff s) m'.
Proof.
  intros N Hm E. apply mat_inplace_diff in E; [|done]. revert E. apply (each_row_alike _ (inplace_shape Diff)); [|done].
  intros i v w <-. apply (diff_shape v w).
Qed.
Lemma mat_conversion_alike k op s m m' : sh_typed s -> alike s m -> mat_conversion k op m = Done m' -> alike (conversion_shape op s) m'.
Proof.
  intros Ht Hm E. apply mat_conversion_rows in E. revert E. apply (each_row_alike _ (conversion_shape op)); [|done].
  intros i v w Es. pose proof (typed_rows _ _ Ht Es). subst s. by apply conversion_shape_right.
Qed.
Lemma mat_buffered_alike e k op s b m m' b' : sh_typed s -> alike s m -> mat_buffered e k op b m = Done (m', b') -> alike (buffered_shape op s) m'.
Proof.
  intros Ht Hm E. apply transform_spec in E. revert E. apply (through_alike k _ (buffered_shape op)); [|done].
  intros i c v w c' Es. pose proof (typed_rows _ _ Ht Es). subst s. by apply buffered_shape_right.
Qed.
Lemma mat_fallible_alike e k op s b m m' b' : sh_typed s -> alike s m -> mat_fallible e k op b m = Done (m', b', Ok tt) -> alike (fallible_shape op s) m'.
Proof.
  intros Ht Hm E. apply transform_res_spec in E. revert E. apply (through_all_alike k _ (fallible_shape op)); [|done].
  intros i c v w c' Es. pose proof (typed_rows _ _ Ht Es). subst s. by apply fallible_shape_right.
Qed.
Lemma mat_inplace_b_alike e fits op s b m m' b' : alike s m -> mat_inplace_b e fits op b m = Done (m', b') -> alike (inplace_b_shape op s) m'.
Proof.
  intros Hm E. apply rows_buf_spec in E. revert E. apply (through_alike Matrix2xN _ (inplace_b_shape op)); [|done].
  intros i c v w c' <-. apply inplace_b_shape_right.
Qed.
Lemma mat_resample_alike e op s b m m' b' : alike s m -> mat_resample e op b m = Done (m', b', Ok tt) -> alike (resampling_shape op s) m'.
Proof.
  intros Hm E. apply rows_buf_try_spec in E. revert E. apply (tried_through_alike _ (resampling_shape op)); [|done].
  intros i c v w c' <-. apply resampling_shape_right.
Qed.
Lemma mat_binary_alike e op s m o m' res : alike s m -> mat_binary e op m o = Done (m', res) -> alike s m'.
Proof.
  intros Hm E. apply rows_zip_try_spec in E. revert E. apply tried_rows_kept; [|done]. intros i v w r <-. unfold paired.
  destruct (o !! i); [apply binary_shape_right|]. by intros [= <- <-].
Qed.
Lemma mat_binary_vec_alike e op s m o m' res : alike s m -> mat_binary_vec e op m o = Done (m', res) -> alike s m'.
Proof. intros Hm E. apply rows_try_spec in E. revert E. apply tried_rows_kept; [|done]. intros i v w r <-. apply binary_shape_right. Qed.
Lemma mat_convolve_vector_alike e s b m imp m' b' res : alike s m -> mat_convolve_vector e b m imp = Done (m', b', res) -> alike s m'.
Proof.
  intros Hm E. unfold mat_convolve_vector in E. apply rows_buf_try_spec in E. revert E. apply tried_through_kept; [|done]. intros i c v w c' r <- E.
  exact (convolve_signal_shape _ _ _ _ _ _ _ _ _ _ E).
Qed.
Lemma mat_set_delta_alike s m d m' : alike s m -> mat_set_delta m d = Done m' -> alike (with_delta d s) m'.
Proof. intros Hm E. apply rows_each_spec in E. revert E. apply (each_row_alike _ (with_delta d)); [|done]. by intros i v w <- [= <-]. Qed.
Lemma mat_resize_alike s m n m' : alike s m -> mat_resize m n = Done (m', Ok tt) -> alike (with_len n s) m'.
Proof.
  intros Hm E. apply rows_try_spec in E. revert E. apply (tried_rows_alike _ (with_len n)); [|done]. intros i v w <- [= E]. by apply resize_Ok_shape in E.
Qed.
Lemma mat_metadata s m : alike s m -> m <> [] ->
  row_len m = sh_len s /\ row_points m = sh_points s /\ mat_domain m = sh_dom s /\ mat_is_complex m = sh_complex s /\ mat_delta m = sh_delta s.
Proof. destruct m as [|v m]; [done|]. intros Hm _. pose proof (Forall_inv Hm) as Ev. cbn beta in Ev. subst s. split_and!; try done. cbn [row_points]. symmetry. apply points_shape. Qed.
End matrices.

Section consequences.
Context {A : Type} `{Num A} `{Flt A} `{Rem A} `{Trig A} `{Math A} `{F : Fft A} `{RA : Rounding A}.
Implicit Types (m : matrix A) (s : shape A) (v w u : dvec A).
Lemma mat_metadata_rows s m v : alike s m -> v ∈ m ->
  row_len m = len v /\ row_points m = points v /\ mat_domain m = vdomain v /\ mat_is_complex m = is_complex v /\ mat_delta m = delta v.
Proof.
  intros Hm Hv. destruct (mat_metadata s m Hm) as (E1 & E2 & E3 & E4 & E5); [by intros ->; apply elem_of_nil in Hv|].
  apply elem_of_list_lookup in Hv as [i Hv]. pose proof (proj1 (alike_lookup s m) Hm i v Hv) as Es. subst s.
  rewrite points_shape in E2. by rewrite E1, E2, E3, E4, E5.
Qed.
Lemma mat_get_rows m : exists n, mat_get m = (m, n) /\ forall s v, alike s m -> v ∈ m -> n = len v.
Proof.
  exists (row_len m). split; [done|]. intros s v Hm Hv. destruct m as [|x m]; [by apply elem_of_nil in Hv|].
  apply elem_of_list_lookup in Hv as [i Hv]. pose proof (proj1 (alike_lookup s _) Hm i v Hv) as Es. pose proof (Forall_inv Hm) as Ex. cbn beta in Ex.
  rewrite <- Es in Ex. exact (f_equal sh_len Ex).
Qed.
Lemma there_and_back_shape e e' i j b v w u b1 b' b2 : typed v -> is_complex v = true -> vdomain v = Time ->
  vec_buffered e FFT i b v = Done (w, b1) -> vec_buffered e' IFFT j b' w = Done (u, b2) ->
  len u = len v /\ is_complex u = true /\ delta u = (nofnat (points v) * (nofnat (points v) * delta v))%num /\
  vdomain u = (if at_run_time v then Frequency else Time).
Proof.
  intros Ht Hc Hd E1 E2. apply buffered_shape_right in E1 as E1'; [|done]. assert (Hw : typed w).
  { unfold typed. assert (En : number_space w = sh_space (buffered_shape FFT (shape_of v))) by exact (f_equal sh_space E1').
    assert (Ed : domain w = sh_domain (buffered_shape FFT (shape_of v))) by exact (f_equal sh_domain E1'). rewrite En, Ed.
    clear -Ht Hc Hd. destruct v as [dt x dm ns n]. unfold typed, is_complex, vdomain in *. cbn -[Nat.div] in *.
    by destruct ns as [| |[]], dm as [| |[]]. }
  apply buffered_shape_right in E2; [|done]. rewrite E1' in E2. clear E1 E1' Hw.
  assert (El : len u = sh_len (buffered_shape IFFT (buffered_shape FFT (shape_of v)))) by exact (f_equal sh_len E2).
  assert (Ec : is_complex u = sh_complex (buffered_shape IFFT (buffered_shape FFT (shape_of v)))) by exact (f_equal sh_complex E2).
  assert (Ex : delta u = sh_delta (buffered_shape IFFT (buffered_shape FFT (shape_of v)))) by exact (f_equal sh_delta E2).
  assert (Ed : vdomain u = sh_dom (buffered_shape IFFT (buffered_shape FFT (shape_of v)))) by exact (f_equal sh_dom E2).
  rewrite El, Ec, Ex, Ed. clear -Ht Hc Hd. destruct v as [dt x dm ns n]. unfold points. unfold typed, is_complex, vdomain, at_run_time in *. cbn -[Nat.div] in *.
  by destruct ns as [| |[]], dm as [| |[]].
Qed.
Lemma sfft_types_differ e e' (op : fallible A) i j b v w v' w' b1 b' b2 :
  op = Plain_sfft \/ op = Sfft \/ (exists wd, op = Windowed_sfft wd) ->
  number_space v = NReal -> domain v = DTime -> number_space w = NDyn false -> domain w = DDyn Time -> delta w = delta v -> len w = len v -> 2 <= len v ->
  vec_fallible e op i b v = Done (v', b1, Ok tt) -> vec_fallible e' op j b' w = Done (w', b2, Ok tt) ->
  len v' = len v + 1 /\ len w' = len v / 2 + 1 /\ len v' <> len w' /\
  delta v' = (nofnat (2 * len v) * delta v)%num /\ delta w' = (nofnat (len v) * delta v)%num.
Proof.
  intros Hop Nv Dv Nw Dw Xw Lw G2 E1 E2.
  apply fallible_shape_right in E1; [|unfold typed; by rewrite Nv, Dv]. apply fallible_shape_right in E2; [|unfold typed; by rewrite Nw, Dw].
  assert (E : fallible_shape op = fallible_shape Plain_sfft) by (by destruct Hop as [->|[->|[wd ->]]]). rewrite E in E1, E2. clear E Hop.
  assert (L1 : len v' = len v + 1).
  { rewrite (f_equal sh_len E1 : len v' = _). cbn [fallible_shape]. change (sh_space (shape_of v)) with (number_space v). by rewrite Nv. }
  assert (L2 : len w' = len v / 2 + 1).
  { rewrite (f_equal sh_len E2 : len w' = _). cbn [fallible_shape]. change (sh_space (shape_of w)) with (number_space w). rewrite Nw. cbn [sh_len with_len].
    change (sh_len (shape_of w)) with (len w). by rewrite Lw. }
  split; [done|]. split; [done|]. split.
  { rewrite L1, L2. pose proof (Nat.div_lt (len v) 2). lia. }
  split.
  - rewrite (f_equal sh_delta E1 : delta v' = _). clear -Nv Dv. destruct v as [dt x dm ns n]. cbn in Nv, Dv. subst ns dm.
    unfold shape_of, len. cbn -[Nat.div Nat.mul]. rewrite (Nat.mul_comm 2 (2 * n)), Nat.div_mul by lia. done.
  - rewrite (f_equal sh_delta E2 : delta w' = _), <- Xw, <- Lw. clear -Nw Dw. destruct w as [dt x dm ns n]. cbn in Nw, Dw. subst ns dm.
    unfold shape_of, len. cbn -[Nat.div Nat.mul]. rewrite (Nat.mul_comm 2 n), Nat.div_mul by lia. done.
Qed.
End consequences.

From Verif Require Import NumsR Nums NumsTrig NumsFlt Proof_Dft.
Lemma delta_not_restored `{F : Fft R} e e' i j b (v w u : dvec R) b1 b' b2 :
  typed v -> is_complex v = true -> vdomain v = Time -> 2 <= points v -> delta v <> 0%R ->
  vec_buffered e FFT i b v = Done (w, b1) -> vec_buffered e' IFFT j b' w = Done (u, b2) -> delta u <> delta v.
Proof.
  intros Ht Hc Hd H2 Hx E1 E2. destruct (there_and_back_shape _ _ _ _ _ _ _ _ _ _ _ Ht Hc Hd E1 E2) as (_ & _ & E & _). rewrite E. clear E E1 E2.
  change (INR (points v) * (INR (points v) * delta v) <> delta v)%R. assert (Hp : (2 <= INR (points v))%R) by (apply le_INR in H2; exact H2).
  intros E'. apply Hx. revert E' Hp. generalize (INR (points v)). intros n E' Hn.
  assert (Ep : ((n * n - 1) * delta v)%R = 0%R) by (replace ((n * n - 1) * delta v)%R with (n * (n * delta v) - delta v)%R by ring; rewrite E'; ring).
  apply Rmult_integral in Ep as [Ep|Ep]; [exfalso; nra|exact Ep].
Qed.
