(** The transforms of the table of Spec_Named.v for the rows of matrices and for the foreign functions *)
From Verif Require Import Props_Par Props_Reorg Props_Window Proof_Window Proof_ElemOps Proof_CorrV Proof_FftMore Proof_SfftR Proof_Dft Proof_MatMore.
From Verif Require Import Proof_Named Proof_NamedFft.
From Verif Require Import Spec_NamedFft.
From Verif Require Import Model_MatOps.
From stdpp Require Import tactics.
Local Open Scope R_scope.
Local Notation C := (R * R)%type.

Lemma all_good_rows {V W X} (holds : V -> X -> Prop) (holds' : W -> X -> Prop) (rel : X -> X -> Prop) m m' xs : Forall2 holds m xs ->
  all_good (fun _ v w => forall x, holds v x -> exists y, holds' w y /\ rel x y) m m' -> exists ys, Forall2 holds' m' ys /\ Forall2 rel xs ys.
Proof.
  intros Hm. revert m'. induction Hm as [|v x m xs Hv Hm IH]; intros m' [L G].
  - destruct m'; [|discriminate L]. exists []. split; constructor.
  - destruct m' as [|w m']; [discriminate L|].
    destruct (G 0%nat v eq_refl) as (w0 & E0 & Hg). injection E0 as <-. destruct (Hg x Hv) as (y & Hy & Hr).
    destruct (IH m') as (ys & Hys & Hrs).
    { split; [cbn in L; lia|]. intros i u Hu. exact (G (S i) u Hu). }
    exists (y :: ys). split; constructor; assumption.
Qed.

(** *** Numbers from complex vectors, with a buffer *)
Lemma conversion_spare `{F : Fft R} e op k i b (v v' : dvec R) b' : unbuffered op = Some k -> vec_buffered e op i b v = Done (v', b') -> still_spare b b'.
Proof.
  intros Hk E.
  assert (Hp : forall f, complex_to_real_b f (e_set e) (e_sched e i 0) b v = Done (v', b') -> still_spare b b').
  { intros f Ef. unfold complex_to_real_b in Ef. destruct (is_complex v); cbn [negb] in Ef; [|injection Ef as <- <-; apply still_spare_refl].
    apply bind_Done_inv in Ef as ([v1 b1] & E1 & [= <- <-]). unfold pure_complex_to_real_operation in E1. cbv zeta in E1.
    repeat (apply bind_Done_inv in E1 as (? & _ & E1)). destruct (trade b _ _) as [st b2] eqn:Et. injection E1 as <- <-. exact (trade_spare _ _ _ _ _ Et). }
  assert (Hs : forall f g, complex_to_real_simd_b f g (e_reg e) (e_addr e i) (e_set e) (e_sched e i 0) b v = Done (v', b') -> still_spare b b').
  { intros f g Ef. unfold complex_to_real_simd_b in Ef. destruct (is_complex v); cbn [negb] in Ef; [|injection Ef as <- <-; apply still_spare_refl].
    apply bind_Done_inv in Ef as ([v1 b1] & E1 & [= <- <-]). unfold simd_complex_to_real_operation in E1. cbv zeta in E1.
    repeat (apply bind_Done_inv in E1 as (? & _ & E1); repeat match type of E1 with context [let '(_, _) := ?y in _] => is_var y; destruct y end).
    destruct (trade b _ _) as [st b2] eqn:Et. injection E1 as <- <-. exact (trade_spare _ _ _ _ _ Et). }
  destruct op; cbn [unbuffered] in Hk; try discriminate Hk; cbn [vec_buffered] in E.
  - exact (Hs _ _ E). - exact (Hs _ _ E). - exact (Hp _ E). - exact (Hp _ E). - exact (Hp _ E).
Qed.
Theorem matrix_conversions_b `{F : Fft R} kd e op k b (m : matrix R) cs : complex_rows m cs -> unbuffered op = Some k ->
  (forall i v, m !! i = Some v -> row_ready e i v /\ typed v /\ lends b v (points v)) ->
  exists m' b', mat_buffered e kd op b m = Done (m', b') /\ real_rows m' (map (map (converts k)) cs).
Proof.
  intros Hm Hk Hr.
  destruct (transform_keeps kd (still_spare b) (fun _ v w => forall c, cplx v c -> reals w (map (converts k) c)) (vec_buffered e op) m b) as (m' & b' & E & _ & [L G]).
  - intros i v b0 Ev Hb0. destruct (Hr i v Ev) as (H1 & H2 & H3). apply (still_spare_lends b b0 v _ Hb0) in H3.
    destruct (lookup_lt_is_Some_2 cs i) as [c Ec]; [rewrite <- (Forall2_length _ _ _ Hm); exact (lookup_lt_Some _ _ _ Ev)|].
    assert (Hv : cplx v c) by exact (Forall2_lookup_lr _ _ _ _ _ _ Hm Ev Ec). rewrite (points_cplx v c Hv) in H3.
    destruct (buffered_numbers e op k i b0 v c Hk H1 H2 H3 Hv) as (w & b1 & E & D & _).
    exists w, b1. split; [exact E|]. split.
    + intros n Hn. apply (conversion_spare e op k i b0 v w b1 Hk E). exact (Hb0 n Hn).
    + intros c0 Hc0. assert (c0 = c) as -> by exact (cplx_same v c0 c Hc0 Hv). exact D.
  - intros n Hn. exact Hn.
  - exists m', b'. split; [exact E|]. clear E. revert m' L G. unfold complex_rows, real_rows in *. clear Hr. induction Hm as [|v c m cs Hv Hm IH]; intros m' L G.
    + destruct m'; [constructor|discriminate L].
    + destruct m' as [|w m']; [discriminate L|]. destruct (G 0%nat v eq_refl) as (w0 & E0 & Hg). injection E0 as <-.
      cbn [map]. constructor; [exact (Hg c Hv)|]. apply IH; [cbn in L; lia|]. intros i u Hu. exact (G (S i) u Hu).
Qed.
Theorem foreign_conversions_b `{F : Fft R} `{Math R} `{RA : Rounding R} `{IsNan R} e fits op k (x : ivec R) c : unbuffered op = Some k -> cplx (i_vec x) c ->
  row_ready e 0 (i_vec x) -> typed (i_vec x) -> lends (i_buf x) (i_vec x) (length c) ->
  exists y code, foreign_call e fits (F_buffered op) x = Done (y, code) /\ reals (i_vec y) (map (converts k) c) /\ still_spare (i_buf x) (i_buf y) /\
    (code = 0%Z \/ (len (i_vec y) = 0%nat /\ nisnan (delta (i_vec y)) = true)).
Proof.
  intros Hk Hv H1 H2 H3. destruct (buffered_numbers e op k 0 (i_buf x) (i_vec x) c Hk H1 H2 H3 Hv) as (w & b1 & E & D & _).
  pose proof (conversion_spare e op k 0 (i_buf x) (i_vec x) w b1 Hk E) as Hs.
  cbn [foreign_call]. unfold trans_vec, inf_b. rewrite E, !bind_Done. eexists _, _. split; [reflexivity|]. cbn [i_vec i_buf]. split; [exact D|]. split; [exact Hs|].
  unfold get_error_marker, is_erroneous, len. destruct (valid_len w =? 0)%nat eqn:E0; [|left; reflexivity].
  destruct (nisnan (delta w)) eqn:E1; [right|left; reflexivity]. split; [by apply Nat.eqb_eq|reflexivity].
Qed.

Section transforms.
Context `{F : Fft R} (HF : computes_dft).
Let Hlf : forall c, length (fft_forward c) = length c. Proof. intros c. destruct HF as (-> & _). apply dft_length. Qed.
Let Hli : forall c, length (fft_inverse c) = length c. Proof. intros c. destruct HF as (_ & -> & _). apply dft_length. Qed.

Lemma transformable_spare e op b b' (v : dvec R) : still_spare b b' -> transformable e op b v -> transformable e op b' v.
Proof using.
  clear. intros Hs (Hd & Hb & Hx). split; [exact Hd|]. split; [|exact Hx].
  destruct op; try exact (Hs _ Hb). destruct Hb as (H1 & H2 & H3). split; [exact H1|]. split; [exact (still_spare_lends b b' v _ Hs H2) | exact (Hs _ H3)].
Qed.
(** The buffer keeps its room *)
Lemma transform_spare e op i b (v v' : dvec R) b' c : row_ready e i v -> typed v -> aligned_all (e_reg e) (e_addr e i) -> transformable e op b v -> cplx v c ->
  vec_buffered e op i b v = Done (v', b') -> still_spare b b'.
Proof using HF.
  intros (Hr & He & Ha & Hl & Hw) Ht Hal (Hd & Hb & Hx) Hv Eq.
  assert (Hp : points v = length c) by exact (points_cplx v c Hv).
  assert (Hlen : length c <> 0%nat).
  { intros E. apply Hl. rewrite (reals_len v _ (proj2 Hv)), (complex_to_array_length c), E. reflexivity. }
  assert (Ha2 : half_aligned (e_reg e) (e_addr e i) \/ (len v < (e_addr e i mod reg_bytes (e_reg e)) / elem_size (e_reg e) + reg_len (e_reg e))%nat).
  { destruct Ha as [[h _]|h]; [left; exact h | right; exact h]. }
  assert (Hifft : vdomain v = Frequency -> length c <> 1%nat -> spare b (2 * fft_inplace_scratch_len (length c)) ->
    forall w bb, vifft (e_reg e) (e_addr e i) (e_set e) (e_sched e i 0) b v = Done (w, bb) -> still_spare b bb).
  { intros Hd' H1 Hb' w bb E. unfold vifft in E. rewrite Hp in E.
    destruct (proj2 (C13_scale_real (e_reg e) (e_addr e i) (e_set e) (e_sched e i 0) (n1 / nofnat (length c))%num v Hr He Ha2) c Hv) as (v1 & E1 & D1 & M1 & _).
    rewrite E1, bind_Done in E.
    destruct (C10_ifft_shift_complex v1 _ D1) as (v2 & c2 & E2 & D2 & Rot & M2 & _); [rewrite map_length; exact H1|].
    rewrite E2, bind_Done in E. rewrite map_length in Rot.
    assert (Hl2 : length c2 = length c). { destruct Rot as [L _]. rewrite L, map_length. reflexivity. }
    destruct M1 as (M1a & M1b & M1c), M2 as (M2a & M2b & M2c).
    assert (Hd2 : vdomain v2 = Frequency) by (unfold vdomain in *; congruence).
    assert (Ht2 : typed v2) by (unfold typed in *; by rewrite M2b, M2c, M1b, M1c).
    destruct (plain_ifft_any Hli b v2 c2 D2 Hd2 Ht2) as (v3 & b3 & E3 & K); [by rewrite Hl2|].
    rewrite E3 in E. injection E as <- <-. apply K. }
  rewrite Hp in Hb, Hx. destruct op; cbn [vec_buffered transforms] in *; try (exfalso; exact Hx).
  - destruct (plain_fft_any Hlf b v c Hv Hd Ht Hb) as (w & bb & E & K). rewrite E in Eq. injection Eq as <- <-. apply K.
  - destruct (fft_any Hlf b v c Hv Hd Ht Hb) as (w & bb & X & E & K). rewrite E in Eq. injection Eq as <- <-. apply K.
  - destruct (apply_window_spec w (e_set e) (e_sched e i 0) v) as [_ Hy]; [rewrite Hp; exact Hx|intros _; left; lia|].
    destruct (Hy c Hv) as (v1 & c1 & E1 & D1 & P1 & (M1 & M2 & M3) & _).
    assert (Hl1 : length c1 = length c) by (destruct P1 as [L _]; exact L).
    assert (Hd1 : vdomain v1 = Time) by (unfold vdomain in *; congruence).
    assert (Ht1 : typed v1) by (unfold typed in *; by rewrite M2, M3).
    destruct (fft_any Hlf b v1 c1 D1 Hd1 Ht1) as (v2 & bb & X & E & K); [by rewrite Hl1|].
    unfold windowed_fft in Eq. rewrite E1, bind_Done in Eq. unfold vfft in E. rewrite E in Eq. injection Eq as <- <-. apply K.
  - destruct (plain_ifft_any Hli b v c Hv Hd Ht Hb) as (w & bb & E & K). rewrite E in Eq. injection Eq as <- <-. apply K.
  - exact (Hifft Hd Hx Hb _ _ Eq).
  - destruct Hx as [Hx1 Hx2]. unfold windowed_ifft in Eq. apply bind_Done_inv in Eq as ([v1 b1] & E1 & Eq). apply bind_Done_inv in Eq as (v2 & E2 & [= <- <-]).
    exact (Hifft Hd Hx1 Hb _ _ E1).
  - destruct (prepare_argument_any HF (e_reg e) (e_addr e i) (e_set e) (e_sched e i 0) b v c Hal Hv Hd Ht Hb) as (w & bb & E & K).
    rewrite E in Eq. injection Eq as <- <-. apply K.
  - destruct Hb as (Hb1 & Hb2 & Hb3).
    destruct (prepare_argument_padded_any HF (e_reg e) (e_addr e i) (e_set e) (e_sched e i 0) b v c Hal Hv Hb1 Hd Ht Hb2 Hb3) as (w & bb & E & K).
    rewrite E in Eq. injection Eq as <- <-. apply K.
Qed.

Theorem matrix_transforms k e op b (m : matrix R) cs : complex_rows m cs ->
  (forall i v, m !! i = Some v -> row_ready e i v /\ typed v /\ aligned_all (e_reg e) (e_addr e i) /\ transformable e op b v) ->
  exists m' b' cs', mat_buffered e k op b m = Done (m', b') /\ complex_rows m' cs' /\ Forall2 (transforms op) cs cs'.
Proof using HF.
  intros Hm Hr.
  destruct (transform_keeps k (still_spare b) (fun _ v w => forall c, cplx v c -> exists c', cplx w c' /\ transforms op c c') (vec_buffered e op) m b) as (m' & b' & E & _ & G).
  - intros i v b0 Ev Hb0. destruct (Hr i v Ev) as (H1 & H2 & H3 & H4). apply (transformable_spare e op b b0 v Hb0) in H4.
    assert (Hin : v ∈ m) by (by apply elem_of_list_lookup_2 with i).
    destruct (lookup_lt_is_Some_2 cs i) as [c Ec]; [rewrite <- (Forall2_length _ _ _ Hm); exact (lookup_lt_Some _ _ _ Ev)|].
    assert (Hv : cplx v c) by exact (Forall2_lookup_lr _ _ _ _ _ _ Hm Ev Ec).
    destruct (transform_values HF e op i b0 v c H1 H2 H3 H4 Hv) as (w & b1 & c' & E & D & P).
    exists w, b1. split; [exact E|]. split.
    + intros n Hn. apply (transform_spare e op i b0 v w b1 c H1 H2 H3 H4 Hv E). exact (Hb0 n Hn).
    + intros c0 Hc0. assert (c0 = c) as -> by exact (cplx_same v c0 c Hc0 Hv). exists c'. split; assumption.
  - intros n Hn. exact Hn.
  - destruct (all_good_rows _ _ _ m m' cs Hm G) as (cs' & D & P). exists m', b', cs'. split; [exact E|]. split; [exact D|exact P].
Qed.

Context `{Math R} `{RA : Rounding R} `{IsNan R}.
Theorem foreign_transforms e fits f op (x : ivec R) c : foreign_transform f = Some op -> cplx (i_vec x) c ->
  row_ready e 0 (i_vec x) -> typed (i_vec x) -> aligned_all (e_reg e) (e_addr e 0) -> transformable e op (i_buf x) (i_vec x) ->
  exists y code c', foreign_call e fits f x = Done (y, code) /\ cplx (i_vec y) c' /\ transforms op c c' /\ still_spare (i_buf x) (i_buf y) /\
    (code = 0%Z \/ (len (i_vec y) = 0%nat /\ nisnan (delta (i_vec y)) = true)).
Proof using HF.
  intros Hf Hv H1 H2 H3 H4. destruct (transform_values HF e op 0 (i_buf x) (i_vec x) c H1 H2 H3 H4 Hv) as (w & b1 & c' & E & D & P).
  pose proof (transform_spare e op 0 (i_buf x) (i_vec x) w b1 c H1 H2 H3 H4 Hv E) as Hs.
  assert (Hu : foreign_call e fits f x = trans_vec (inf_b (vec_buffered e op 0)) x).
  { destruct f; cbn [foreign_transform] in Hf; try discriminate Hf; injection Hf as <-; try reflexivity.
    all: match goal with |- context [window_of_number ?z] => unfold window_of_number; destruct z as [|[?|[?|?|]|]|?]; reflexivity end. }
  rewrite Hu. unfold trans_vec, inf_b. rewrite E, !bind_Done. eexists _, _, c'. split; [reflexivity|]. cbn [i_vec i_buf]. split; [exact D|]. split; [exact P|]. split; [exact Hs|].
  unfold get_error_marker, is_erroneous, len. destruct (valid_len w =? 0)%nat eqn:E0; [|left; reflexivity].
  destruct (nisnan (delta w)) eqn:E1; [right|left; reflexivity]. split; [by apply Nat.eqb_eq|reflexivity].
Qed.
End transforms.
