(** C72: functions of a C client are used as the documentation says *)
From stdpp Require Import tactics.
From Verif Require Import Proof_Map Props_Interop Props_Foreign Props_Window Props_Stats Props_Interpolate Props_Convolve.
From Verif Require Import Props_Settings Spec_Settings Model_Foreign.
From Verif Require Import NumsR Nums NumsFlt NumsTrig Spec_Interp Props_Matrix Proof_Frame Model_MatOps Model_Custom Spec_Window Spec_ConvFn Spec_Interpolate Spec_Interop.
Local Open Scope nat_scope.

Section success.
Context {A : Type} `{Num A} `{IsNan A}.
Lemma in_place_fine (op : dvec A -> run (dvec A)) (x : ivec A) v : op (i_vec x) = Done v -> 0 < valid_len v -> convert_vec (inf op) x = Done (IVec v (i_buf x), 0%Z).
Proof.
  intros E Hl. unfold convert_vec, inf. rewrite E, !bind_Done. cbv beta iota. unfold get_error_marker, is_erroneous. by destruct (Nat.eqb_spec (valid_len v) 0); [lia|].
Qed.
Lemma with_buffer_fine (op : buffer A -> dvec A -> run (dvec A * buffer A)) (x : ivec A) v b : op (i_buf x) (i_vec x) = Done (v, b) -> 0 < valid_len v ->
  convert_vec (inf_b op) x = Done (IVec v b, 0%Z).
Proof.
  intros E Hl. unfold convert_vec, inf_b. rewrite E, !bind_Done. cbv beta iota. unfold get_error_marker, is_erroneous. by destruct (Nat.eqb_spec (valid_len v) 0); [lia|].
Qed.
Lemma fallible_fine (op : buffer A -> dvec A -> run (dvec A * buffer A * result unit)) (x : ivec A) v b : op (i_buf x) (i_vec x) = Done (v, b, Ok tt) ->
  0 < valid_len v -> convert_vec op x = Done (IVec v b, 0%Z).
Proof.
  intros E Hl. unfold convert_vec. rewrite E, bind_Done. cbv beta iota. unfold get_error_marker, is_erroneous. by destruct (Nat.eqb_spec (valid_len v) 0); [lia|].
Qed.
Lemma some_real v (l : list A) : reals v l -> l <> [] -> 0 < valid_len v.
Proof. intros Hv Hl. pose proof (reals_len v l (proj2 Hv)) as E. unfold len in E. rewrite E. by destruct l; [|cbn; lia]. Qed.
Lemma some_complex v (c : list (A * A)) : cplx v c -> c <> [] -> 0 < valid_len v.
Proof. intros Hv Hl. pose proof (reals_len v _ (proj2 Hv)) as E. unfold len in E. rewrite E, complex_to_array_length. by destruct c; [|cbn; lia]. Qed.
Lemma real_points v (l : list A) : reals v l -> points v = length l.
Proof. intros Hv. unfold points. rewrite (proj1 Hv), Nat.div_1_r. exact (reals_len v l (proj2 Hv)). Qed.
Lemma complex_points v (c : list (A * A)) : cplx v c -> points v = length c.
Proof. intros Hv. unfold points. rewrite (proj1 Hv). pose proof (reals_len v _ (proj2 Hv)) as E. unfold len in E. rewrite E, complex_to_array_length, Nat.mul_comm. by apply Nat.div_mul. Qed.
Lemma same_length_some {X Y} (l : list X) (l' : list Y) : length l' = length l -> l <> [] -> l' <> [].
Proof. by destruct l, l'. Qed.
End success.

(** ** Windows *)
(** Point [i] of [n] is multiplied with [window(data, i, n)]. A client which declares its window as symmetric must tell the truth. *)
Theorem C72_apply_window : forall {A D} `{Num A} `{Flt A} `{Rem A} `{Trig A} `{Math A} `{F : Fft A} `{RA : Rounding A} `{IsNan A}
    e fits window (data : D) symmetric (x : ivec A),
  (symmetric = true -> mirrored (window data) (points (i_vec x)) /\ pairs_up (e_set e) (points (i_vec x))) ->
  (forall l, reals (i_vec x) l -> l <> [] -> exists y l', custom_call e fits (K_apply_window window data symmetric) x = Done (y, 0%Z) /\
     reals (i_vec y) l' /\ windowed nmul (window data) l l' /\ i_buf y = i_buf x /\ same_meta (i_vec x) (i_vec y)) /\
  (forall c, cplx (i_vec x) c -> c <> [] -> exists y c', custom_call e fits (K_apply_window window data symmetric) x = Done (y, 0%Z) /\
     cplx (i_vec y) c' /\ windowed (fun z f => complex_product z (f, n0)) (window data) c c' /\ i_buf y = i_buf x /\ same_meta (i_vec x) (i_vec y)).
Proof.
  intros A D HN HF HR HT HM F RA HI e fits wd d sym x Hs.
  assert (K : points (i_vec x) <> 0 -> applies_factors (wd d) (apply_window (foreign_window wd d sym) (e_set e) (e_sched e 0 0)) (i_vec x)).
  { intros Hp. apply C26_apply; [exact Hs|]. intros _. left. lia. }
  split.
  - intros l Hl Hn. rewrite (real_points _ _ Hl) in K. destruct (proj1 (K ltac:(by destruct l)) l Hl) as (v & l' & E & Hv & Hw & Hm & _).
    assert (Hn' : l' <> []) by exact (same_length_some _ _ (proj1 Hw) Hn).
    exists (IVec v (i_buf x)), l'. split; [|done]. exact (in_place_fine _ x v E (some_real v l' Hv Hn')).
  - intros c Hc Hn. rewrite (complex_points _ _ Hc) in K. destruct (proj2 (K ltac:(by destruct c)) c Hc) as (v & c' & E & Hv & Hw & Hm & _).
    assert (Hn' : c' <> []) by exact (same_length_some _ _ (proj1 Hw) Hn).
    exists (IVec v (i_buf x)), c'. split; [|done]. exact (in_place_fine _ x v E (some_complex v c' Hv Hn')).
Qed.
Print Assumptions C72_apply_window.
(** If it doesn't, the window is only asked for the points of the first half. *)
Theorem C72_symmetric_refuted : forall {A D} `{Num A} `{Flt A} `{Rem A} `{Trig A} `{Math A} `{F : Fft A} `{RA : Rounding A} `{IsNan A}
    e fits window (data : D) (x : ivec A) l,
  pairs_up (e_set e) (points (i_vec x)) -> reals (i_vec x) l -> l <> [] ->
  exists y l', custom_call e fits (K_apply_window window data true) x = Done (y, 0%Z) /\ reals (i_vec y) l' /\
    windowed nmul (fun i n => window data (Nat.min i (n - 1 - i)) n) l l'.
Proof.
  intros A D HN HF HR HT HM F RA HI e fits wd d x l Hp Hl Hn.
  destruct (proj1 (C26_apply_first_half (foreign_window wd d true) (e_set e) (e_sched e 0 0) (i_vec x) eq_refl Hp) l Hl) as (v & l' & E & Hv & Hw & Hm & _).
  assert (Hn' : l' <> []) by exact (same_length_some _ _ (proj1 Hw) Hn).
  exists (IVec v (i_buf x)), l'. split; [|done]. exact (in_place_fine _ x v E (some_real v l' Hv Hn')).
Qed.
Print Assumptions C72_symmetric_refuted.
(** Taking the window away again restores the vector. *)
Theorem C72_unapply_window : forall {D} `{Math R} `{F : Fft R} `{IsNan R} e e' fits window (data : D) symmetric (x : ivec R) l,
  (symmetric = true -> mirrored (window data) (length l) /\ pairs_up (e_set e) (length l) /\ pairs_up (e_set e') (length l)) ->
  (forall i, i < length l -> window data i (length l) <> 0%R) -> wf (i_vec x) -> e_set e' = e_set e -> vdata (i_vec x) = Done l -> l <> [] -> reals (i_vec x) l ->
  exists y z, custom_call e fits (K_apply_window window data symmetric) x = Done (y, 0%Z) /\
    custom_call e' fits (K_unapply_window window data symmetric) y = Done (z, 0%Z) /\ reals (i_vec z) l /\ same_meta (i_vec x) (i_vec z).
Proof.
  intros D HM F HI e e' fits wd d sym x l Hs Hz Hw He Hd Hn Hl. pose proof (real_points _ _ Hl) as Ep.
  destruct (C26_unapply (foreign_window wd d sym) (e_set e) (e_sched e 0 0) (e_sched e' 0 0) (i_vec x)) as (v1 & v2 & E1 & E2 & Ed & Hm & Hr).
  - rewrite Ep. intros G. by destruct (Hs G) as (? & ? & ?).
  - intros _. left. rewrite Ep. by destruct l; [|cbn; lia].
  - rewrite Ep. exact Hz.
  - exact Hw.
  - assert (H2 : reals v2 l).
    { split; [|by rewrite Ed]. destruct Hm as (_ & _ & En). pose proof (proj1 Hl) as Hc. unfold is_complex in *. by rewrite En. }
    assert (H1 : 0 < valid_len v1).
    { destruct (apply_window_frame _ _ _ _ _ E1) as (E & _). rewrite E. exact (some_real _ _ Hl Hn). }
    exists (IVec v1 (i_buf x)), (IVec v2 (i_buf x)). split; [exact (in_place_fine _ x v1 E1 H1)|].
    split; [|done]. rewrite <- He in E2. exact (in_place_fine _ (IVec v1 (i_buf x)) v2 E2 (some_real _ _ H2 Hn)).
Qed.
Print Assumptions C72_unapply_window.

(** ** Maps: every point is replaced by what the function makes of it and of its index. *)
Theorem C72_map : forall {A D} `{Num A} `{Flt A} `{Rem A} `{Trig A} `{Math A} `{F : Fft A} `{RA : Rounding A} `{IsNan A} e fits (x : ivec A),
  (forall f l, reals (i_vec x) l -> l <> [] -> exists y, custom_call e fits (K_map_real (D := D) f) x = Done (y, 0%Z) /\
     reals (i_vec y) (imap (fun i z => f z i) l) /\ i_buf y = i_buf x /\ same_meta (i_vec x) (i_vec y)) /\
  (forall f c, cplx (i_vec x) c -> c <> [] -> whole_points (i_vec x) -> exists y, custom_call e fits (K_map_complex (D := D) f) x = Done (y, 0%Z) /\
     cplx (i_vec y) (imap (fun i z => f z i) c) /\ i_buf y = i_buf x /\ same_meta (i_vec x) (i_vec y)).
Proof.
  intros A D HN HF HR HT HM F RA HI e fits x. split.
  - intros f l Hl Hn. destruct (C22_map_inplace f (e_set e) (e_sched e 0 0) (i_vec x) l Hl) as (v & E & Hv & Hm & _).
    exists (IVec v (i_buf x)). split; [|done]. apply (in_place_fine _ x v E), (some_real v _ Hv). exact (same_length_some l _ (imap_length _ _) Hn).
  - intros f c Hc Hn Hw. destruct (C22_map_inplace_complex f (e_set e) (e_sched e 0 0) (i_vec x) c Hc Hw) as (v & E & Hv & Hm & _).
    exists (IVec v (i_buf x)). split; [|done]. apply (in_place_fine _ x v E), (some_complex v _ Hv). exact (same_length_some c _ (imap_length _ _) Hn).
Qed.
Print Assumptions C72_map.
(** The function for the wrong number space reports an error and leaves nothing. *)
Theorem C72_map_wrong_space : forall {A D} `{Num A} `{Flt A} `{Rem A} `{Trig A} `{Math A} `{F : Fft A} `{RA : Rounding A} `{IsNan A} e fits (x : ivec A),
  nisnan nnan = true ->
  (forall f, is_complex (i_vec x) = true -> exists y, custom_call e fits (K_map_real (D := D) f) x = Done (y, (-1)%Z) /\ poisoned (i_vec y)) /\
  (forall f, is_complex (i_vec x) = false -> exists y, custom_call e fits (K_map_complex (D := D) f) x = Done (y, (-1)%Z) /\ poisoned (i_vec y)).
Proof.
  intros A D HN HF HR HT HM F RA HI e fits x Hnan. split; intros f Hc; exists (IVec (mark_vector_as_invalid (i_vec x)) (i_buf x)); (split; [|done]);
    unfold custom_call, foreign_call, convert_vec, inf; cbn [vec_inplace]; unfold map_inplace, map_inplace_complex; rewrite Hc; cbn [negb]; rewrite ?bind_Done;
    cbv beta iota; unfold get_error_marker, is_erroneous; cbn; by rewrite Hnan.
Qed.
Print Assumptions C72_map_wrong_space.

(** ** Frequency responses: point [i] is multiplied with the ratio times the value of the function at its place on the frequency axis. *)
Theorem C72_multiply_real : forall {D} `{Math R} `{F : Fft R} `{IsNan R} e fits f (data : D) symmetric ratio (x : ivec R), vdomain (i_vec x) = Frequency ->
  (symmetric = true -> even_function (f data) /\ enough_pieces (e_set e) (points (i_vec x))) ->
  (forall l, reals (i_vec x) l -> l <> [] -> exists y l', custom_call e fits (K_multiply_real f data symmetric ratio) x = Done (y, 0%Z) /\ reals (i_vec y) l' /\
     responded (fun z g => z * (ratio * g))%R (f data) ratio l l' /\ i_buf y = i_buf x /\ same_meta (i_vec x) (i_vec y)) /\
  (forall c, cplx (i_vec x) c -> c <> [] -> exists y c', custom_call e fits (K_multiply_real f data symmetric ratio) x = Done (y, 0%Z) /\ cplx (i_vec y) c' /\
     responded (fun z g => (fst z * (ratio * g), snd z * (ratio * g)))%R (f data) ratio c c' /\ i_buf y = i_buf x /\ same_meta (i_vec x) (i_vec y)).
Proof.
  intros D HM F HI e fits f d sym ratio x Hd Hs.
  assert (K : points (i_vec x) <> 0 -> _) by (intros Hp; exact (C46_real_response (foreign_real_function f d sym) ratio (e_set e) (e_sched e 0 0) (i_vec x) Hd Hs ltac:(intros _; left; lia))).
  split.
  - intros l Hl Hn. rewrite (real_points _ _ Hl) in K. destruct (proj1 (K ltac:(by destruct l)) l Hl) as (v & l' & E & Hv & Hw & Hm & _).
    assert (Hn' : l' <> []) by exact (same_length_some _ _ (proj1 Hw) Hn).
    exists (IVec v (i_buf x)), l'. split; [|done]. exact (in_place_fine _ x v E (some_real v l' Hv Hn')).
  - intros c Hc Hn. rewrite (complex_points _ _ Hc) in K. destruct (proj2 (K ltac:(by destruct c)) c Hc) as (v & c' & E & Hv & Hw & Hm & _).
    assert (Hn' : c' <> []) by exact (same_length_some _ _ (proj1 Hw) Hn).
    exists (IVec v (i_buf x)), c'. split; [|done]. exact (in_place_fine _ x v E (some_complex v c' Hv Hn')).
Qed.
Print Assumptions C72_multiply_real.
Theorem C72_multiply_complex : forall {D} `{Math R} `{F : Fft R} `{IsNan R} e fits f (data : D) symmetric ratio (x : ivec R) c, vdomain (i_vec x) = Frequency ->
  cplx (i_vec x) c -> c <> [] -> (symmetric = true -> even_function (f data) /\ enough_pieces (e_set e) (length c)) ->
  exists y c', custom_call e fits (K_multiply_complex f data symmetric ratio) x = Done (y, 0%Z) /\ cplx (i_vec y) c' /\
     responded (fun z g => complex_product z (ratio * fst g, ratio * snd g))%R (f data) ratio c c' /\ i_buf y = i_buf x /\ same_meta (i_vec x) (i_vec y).
Proof.
  intros D HM F HI e fits f d sym ratio x c Hd Hc Hn Hs.
  destruct (C46_complex_response (foreign_complex_function f d sym) ratio (e_set e) (e_sched e 0 0) (i_vec x) c Hd Hc Hs) as (v & c' & E & Hv & Hw & Hm & _).
  { intros _. left. by destruct c; [|cbn; lia]. }
  assert (Hn' : c' <> []) by exact (same_length_some _ _ (proj1 Hw) Hn).
  exists (IVec v (i_buf x)), c'. split; [|done]. exact (in_place_fine _ x v E (some_complex v c' Hv Hn')).
Qed.
Print Assumptions C72_multiply_complex.

(** ** Impulse responses *)
(** [convolve]: the sums over the neighbourhoods (C28), whatever the client says about the symmetry *)
Theorem C72_convolve : forall {D} `{Math R} `{F : Fft R} `{IsNan R} e fits (data : D) symmetric ratio n k (x : ivec R), vdomain (i_vec x) = Time ->
  to_usize ratio = Some k -> len (i_vec x) <= 20 * 100 \/ 202 < n \/ ~ whole_inverse fround ratio ->
  (forall f l, reals (i_vec x) l -> l <> [] -> lends (i_buf x) (i_vec x) (length l) ->
     exists y, custom_call e fits (K_convolve_real f data symmetric ratio n) x = Done (y, 0%Z) /\ same_meta (i_vec x) (i_vec y) /\
       reals (i_vec y) (function_convolution 0%R Rplus Rmult counted (f data) ratio (Nat.min n (length l)) l)) /\
  (forall f c, cplx (i_vec x) c -> c <> [] -> lends (i_buf x) (i_vec x) (2 * length c) ->
     exists y, custom_call e fits (K_convolve_complex f data symmetric ratio n) x = Done (y, 0%Z) /\ same_meta (i_vec x) (i_vec y) /\
       cplx (i_vec y) (function_convolution (0, 0)%R complex_sum complex_product counted (f data) ratio (Nat.min n (length c)) c)).
Proof.
  intros D HM F HI e fits d sym ratio n k x Hd Hk Hl. split.
  - intros f l Hx Hn Hb. destruct (proj1 (C28_function_scalar fround to_usize fits (e_reg e) (e_addr e 0) (e_set e) (e_sched e 0 0) (i_buf x) (i_vec x) (f d) ratio n k Hd Hk Hl)
      l Hx Hb) as (v & b & E & Hm & Hv).
    exists (IVec v b). split; [|done]. apply (with_buffer_fine _ x v b E), (some_real v _ Hv). apply (same_length_some l); [|done].
    unfold function_convolution. by rewrite map_length, seq_length.
  - intros f c Hx Hn Hb. destruct (C28_function_scalar_complex fround to_usize fits (e_reg e) (e_addr e 0) (e_set e) (e_sched e 0 0) (i_buf x) (i_vec x) (f d) ratio n k c Hd Hk Hl
      Hx Hb) as (v & b & E & Hm & Hv).
    exists (IVec v b). split; [|done]. apply (with_buffer_fine _ x v b E), (some_complex v _ Hv). apply (same_length_some c); [|done].
    unfold function_convolution. by rewrite map_length, seq_length.
Qed.
Print Assumptions C72_convolve.
Theorem C72_convolve_symmetry : forall {A D} `{Num A} `{Flt A} `{Rem A} `{Trig A} `{Math A} `{F : Fft A} `{RA : Rounding A} `{IsNan A} e fits (data : D) ratio n (x : ivec A),
  (forall f, custom_call e fits (K_convolve_real f data true ratio n) x = custom_call e fits (K_convolve_real f data false ratio n) x) /\
  (forall f, custom_call e fits (K_convolve_complex f data true ratio n) x = custom_call e fits (K_convolve_complex f data false ratio n) x).
Proof. done. Qed.
Print Assumptions C72_convolve_symmetry.

(** ** Interpolation *)
(** [interpolatef]: the weighted sums of C56 with the function of the client *)
Theorem C72_interpolatef : forall {D} `{Math R} `{F : Fft R} `{IsNan R} e fits f (data : D) symmetric factor delay c (x : ivec R) n0, let n := n0 + n0 mod 2 in let v := i_vec x in
  (0 < factor)%R -> Rround (INR (len v) * factor) = INR n0 -> lends (i_buf x) v n -> 0 < n ->
  202 < half_at_most (points v) c \/ n < 2000 \/ (/ 1000000 <= Rabs (Rround factor - factor))%R ->
  (forall l, reals v l -> l <> [] -> exists y, custom_call e fits (K_interpolatef f data symmetric factor delay c) x = Done (y, 0%Z) /\ same_meta v (i_vec y) /\
     reals (i_vec y) (map (fun i => weighted 0%R Rplus Rmult (fun z => z) l (fun z => f data (z + delay / delta v)%R)
       (Int_part (INR i / factor) - Z.of_nat (half_at_most (length l) c)) (half_at_most (length l) c) (INR i / factor)%R) (seq 0 n))) /\
  (forall l, cplx v l -> l <> [] -> exists y, custom_call e fits (K_interpolatef f data symmetric factor delay c) x = Done (y, 0%Z) /\ same_meta v (i_vec y) /\
     cplx (i_vec y) (map (fun i => weighted (0, 0)%R complex_sum complex_product of_real l (fun z => f data (z + delay / delta v)%R)
       (Int_part (INR i / factor) - Z.of_nat (half_at_most (length l) c)) (half_at_most (length l) c) (INR i / factor)%R) (seq 0 (n / 2)))).
Proof.
  intros D HM F HI e fits f d sym factor delay c x n0 n v Hf Hn0 Hb Hn Hl. split.
  - intros l Hx Hne. destruct (C56_reals (foreign_real_function f d sym) factor delay c (e_reg e) (e_addr e 0) (e_set e) (e_sched e 0 0) (i_buf x) v n0 Hf Hn0 Hb (or_introl Hn) Hl
      l Hx Hne) as (w & b & E & Hm & Hv).
    exists (IVec w b). split; [|done]. apply (with_buffer_fine _ x w b E), (some_real w _ Hv). apply (same_length_some (seq 0 n)); [by rewrite map_length|].
    fold n. by destruct n; [lia|].
  - intros l Hx Hne. destruct (C56_complex (foreign_real_function f d sym) factor delay c (e_reg e) (e_addr e 0) (e_set e) (e_sched e 0 0) (i_buf x) v n0 Hf Hn0 Hb (or_introl Hn) Hl
      l Hx Hne) as (w & b & E & Hm & Hv).
    exists (IVec w b). split; [|done]. apply (with_buffer_fine _ x w b E), (some_complex w _ Hv). apply (same_length_some (seq 0 (n / 2))); [by rewrite map_length|].
    fold n. assert (Hh : 0 < n / 2); [|by destruct (n / 2); [lia|]]. apply Nat.div_str_pos. split; [lia|]. clear -Hn. unfold n in *. clear n.
    destruct n0 as [|[|m]]; [cbn in Hn; lia|cbn; lia|lia].
Qed.
Print Assumptions C72_interpolatef.
(** [interpolate]: the samples of C53 *)
Theorem C72_interpolate : forall {D} `{Math R} `{F : Fft R} `{IsNan R}, computes_dft -> forall e fits f (data : D) symmetric m delay (x : ivec R) c, let v := i_vec x in
  let h := Response symmetric (f data) in let sc := default_settings in
  cplx v c -> c <> [] -> 0 < m -> aligned_all (e_reg e) (e_addr e 0) -> lends (i_buf x) v (2 * Nat.max (length c) m) ->
  spare (i_buf x) (2 * fft_inplace_scratch_len (length c)) -> spare (i_buf x) (2 * fft_inplace_scratch_len m) ->
  (delay = 0%R \/ Nat.even (length c) = true) -> (length c < m -> foldable h sc m) ->
  exists y, custom_call e fits (K_interpolate f data symmetric m delay) x = Done (y, 0%Z) /\
    cplx (i_vec y) (samples c (placed (Some h) (length c) m) m (delay / delta v)) /\ delta (i_vec y) = (delta v / (INR m / INR (length c)))%R.
Proof.
  intros D HM F HI HF e fits f d sym m delay x c v h sc Hc Hn Hm Ha Hb S1 S2 Hd Hf.
  destruct (C53_complex HF (e_reg e) (e_addr e 0) (e_set e) sc (schedules_of e 0) (i_buf x) v (Some h) c m delay Hc Hn Hm Ha Hb S1 S2 Hd) as (w & b & E & Hv & Hx & _).
  { intros ? [= <-]. exact Hf. }
  exists (IVec w b). split; [|done]. apply (fallible_fine _ x w b E), (some_complex w _ Hv). unfold samples. by destruct m; [lia|].
Qed.
Print Assumptions C72_interpolate.

(** ** Transforms with a window of the client: those of the vectors (C31, C33), with this window *)
Theorem C72_transforms : forall {A D} `{Num A} `{Flt A} `{Rem A} `{Trig A} `{Math A} `{F : Fft A} `{RA : Rounding A} `{IsNan A}
    e fits window (data : D) symmetric (x y : ivec A) code, let w := Window symmetric (fun i n => window data i n) in
  (custom_call e fits (K_windowed_fft window data symmetric) x = Done (y, code) <->
     exists v b, vec_buffered e (Windowed_fft w) 0 (i_buf x) (i_vec x) = Done (v, b) /\ y = IVec v b /\ tells is_erroneous v (Ok tt) code) /\
  (custom_call e fits (K_windowed_ifft window data symmetric) x = Done (y, code) <->
     exists v b, vec_buffered e (Windowed_ifft w) 0 (i_buf x) (i_vec x) = Done (v, b) /\ y = IVec v b /\ tells is_erroneous v (Ok tt) code) /\
  (custom_call e fits (K_windowed_sfft window data symmetric) x = Done (y, code) <->
     exists v b res, vec_fallible e (Windowed_sfft w) 0 (i_buf x) (i_vec x) = Done (v, b, res) /\ y = IVec v b /\ tells is_erroneous v res code) /\
  (custom_call e fits (K_windowed_sifft window data symmetric) x = Done (y, code) <->
     exists v b res, vec_fallible e (Windowed_sifft w) 0 (i_buf x) (i_vec x) = Done (v, b, res) /\ y = IVec v b /\ tells is_erroneous v res code).
Proof.
  intros A D HN HF HR HT HM F RA HI e fits wd d sym x y code w. unfold custom_call. change (foreign_window wd d sym) with w. split_and!.
  - rewrite C40_vector by done. cbn [named]. unfold plain. split.
    + intros (v & b & res & E & -> & T). destruct (vec_buffered _ _ _ _ _) as [[v' b']|]; [|done]. injection E as -> -> <-. eauto.
    + intros (v & b & E & -> & T). exists v, b, (Ok tt). by rewrite E.
  - rewrite C40_vector by done. cbn [named]. unfold plain. split.
    + intros (v & b & res & E & -> & T). destruct (vec_buffered _ _ _ _ _) as [[v' b']|]; [|done]. injection E as -> -> <-. eauto.
    + intros (v & b & E & -> & T). exists v, b, (Ok tt). by rewrite E.
  - by rewrite C40_vector.
  - by rewrite C40_vector.
Qed.
Print Assumptions C72_transforms.

(** ** Examples *)
Local Instance Zmath_k : Math Z := {| rmath := fun _ x => x; cmath := fun _ x => x; rpowf := Z.pow;
  cpowf := fun x _ => x; rlog := fun x _ => x; clog := fun x _ => x; cexpf := fun x _ => x |}.
Local Instance Zfft_k : Fft Z := {| fft_forward := fun c => c; fft_inverse := fun c => c; fft_rest := fun c => c; fft_inplace_scratch_len := fun _ => 0;
  fft_outofplace_scratch_len := fun _ => 0 |}.
Local Instance Zrounding_k : Rounding Z := {| fround := fun x => x; ffloor := fun x => x; fceil := fun x => x; to_usize := fun x => Some (Z.to_nat x);
  to_isize := fun x => Some x; as_usize := Z.to_nat |}.
Local Instance Znan_k : IsNan Z := fun x => (x =? nnan)%Z.
(** The data pointer leads to a table of factors. *)
Definition from_table (table : list Z) (i _ : nat) : Z := default 0%Z (table !! i).
Example C72_example : let x := on_vec NReal DTime [10; 20; 30; 40]%Z in let t := [1; 2; 2; 1]%Z in
  (mirrored (from_table t) 4 /\ pairs_up (e_set alone) 4) /\
  (exists y, custom_call alone (fun _ => true) (K_apply_window from_table t true) x = Done (y, 0%Z) /\ reals (i_vec y) [10; 40; 60; 40]%Z) /\
  (exists y, custom_call alone (fun _ => true) (K_apply_window from_table [1; 2; 3; 4]%Z false) x = Done (y, 0%Z) /\ reals (i_vec y) [10; 40; 90; 160]%Z) /\
  (exists y, custom_call alone (fun _ => true) (K_apply_window from_table [1; 2; 3; 4]%Z true) x = Done (y, 0%Z) /\ reals (i_vec y) [10; 40; 60; 40]%Z) /\
  (exists y, custom_call alone (fun _ => true) (K_map_real (D := unit) (fun z i => z - Z.of_nat i)%Z) x = Done (y, 0%Z) /\ reals (i_vec y) [10; 19; 28; 37]%Z) /\
  (exists y, custom_call alone (fun _ => true) (K_map_complex (D := unit) (fun z i => z)) x = Done (y, (-1)%Z) /\ poisoned (i_vec y)).
Proof.
  intros x t. split; [split|].
  - intros [|[|[|[|i]]]] Hi; [reflexivity ..|lia].
  - left. vm_compute. split; [reflexivity|lia].
  - repeat match goal with |- _ /\ _ => split end; eexists; (split; [vm_compute; reflexivity|done]).
Qed.

Local Instance Rmath_k : Math R := {| rmath := fun _ x => x; cmath := fun _ x => x; rpowf := fun x _ => x;
  cpowf := fun x _ => x; rlog := fun x _ => x; clog := fun x _ => x; cexpf := fun x _ => x |}.
Local Instance Rnan_k : IsNan R := fun _ => false.
(** The place on the axis, scaled with the number behind the data pointer *)
Definition squared (a x : R) : R := (a * (x * x))%R.
Lemma squared_even (a y : R) : squared a (- y)%R = squared a y.
Proof. unfold squared. ring. Qed.
Definition only_here (a x : R) : R := if Req_EM_T x 0 then a else 0%R.
Definition by_oneself : env := Env f64x2 (fun _ => 48) one_core (fun _ _ => []).
Lemma to_usize_one : to_usize 1%R = Some 1.
Proof. exact (Proof_Interp.to_usize_INR 1). Qed.
Lemma ten : Rround (INR (len (i_vec (on_vec NReal DTime [1; 5; -2; 3]%R))) * (5 / 2)) = INR 10.
Proof. change (len _) with 4. apply Proof_Interp.Rround_unique; cbn; lra. Qed.
Example C72_responses_example : let x := on_vec NReal DFreq [1; 2; 3]%R in let z := on_vec NReal DTime [1; 5; -2; 3]%R in
  (exists y l', custom_call (F := exact_fft) by_oneself (fun _ => true) (K_multiply_real squared 7%R true 2%R) x = Done (y, 0%Z) /\ reals (i_vec y) l' /\ l' !! 0 = Some (1 * (2 * (7 * (-1 * 2 * (-1 * 2)))))%R) /\
  (exists y, custom_call (F := exact_fft) by_oneself (fun _ => true) (K_convolve_real only_here 3%R true 1%R 1) z = Done (y, 0%Z) /\
     reals (i_vec y) (function_convolution 0%R Rplus Rmult counted (only_here 3%R) 1%R 1 [1; 5; -2; 3]%R)) /\
  (exists y, custom_call (F := exact_fft) by_oneself (fun _ => true) (K_interpolatef (fun (_ : unit) => r_calc hat) tt true (5 / 2)%R 0%R 1) z = Done (y, 0%Z) /\ len (i_vec y) = 10).
Proof.
  intros x z. assert (Hz : len (i_vec z) <= 20 * 100) by (change (len (i_vec z)) with 4; lia). split_and!.
  - destruct (proj1 (C72_multiply_real (F := exact_fft) by_oneself (fun _ => true) squared 7%R true 2%R x eq_refl (fun _ => conj
      (fun y => squared_even 7%R y) (C46_enough_pieces one_core 3 ltac:(lia) ltac:(vm_compute; lia) (or_introl eq_refl)))) [1; 2; 3]%R) as (y & l' & E & Hy & [_ Hw] & _); [done|done|].
    exists y, l'. split; [exact E|]. split; [exact Hy|]. rewrite (Hw 0 1%R eq_refl). f_equal. unfold axis, squared. cbn. field.
  - destruct (proj1 (C72_convolve (F := exact_fft) by_oneself (fun _ => true) 3%R true 1%R 1 1 z eq_refl to_usize_one (or_introl Hz)) only_here [1; 5; -2; 3]%R)
      as (y & E & _ & Hy); [done|done|done|]. by exists y.
  - assert (Hn : 0 < 10 + 10 mod 2) by (change (10 + 10 mod 2) with 10; lia).
    assert (Hs : 10 + 10 mod 2 < 2000) by (change (10 + 10 mod 2) with 10; lia).
    assert (Hf : (0 < 5 / 2)%R) by lra.
    destruct (proj1 (C72_interpolatef (F := exact_fft) by_oneself (fun _ => true) (fun (_ : unit) => r_calc hat) tt true (5 / 2)%R 0%R 1 z 10 Hf ten I Hn
      (or_intror (or_introl Hs))) [1; 5; -2; 3]%R) as (y & E & _ & Hy); [done|done|].
    exists y. split; [exact E|]. exact (reals_len _ _ (proj2 Hy)).
Qed.

(** ** C69: new vectors with all settings *)
(** Kept here since this file is built after the settings. The settings are those the client asks for, and nothing else is different from the other ways to make a vector. *)
Theorem C69_new_detailed : forall {A} `{Num A} c d (init : A) n delta0 cl md mm ld lm, (c = 0%Z \/ Nat.even n = true) -> 1 <= cl -> 0 < md -> 0 < ld ->
  exists x s, new_with_detailed_performance_options c d init n delta0 cl md mm ld lm = Done (x, s) /\ new_vector c d init n delta0 = Done x /\
    foreign_data x = Done (replicate n init) /\ get_delta x = delta0 /\ core_limit s = cl /\ within_limit s /\ grows s /\ forall co, no_threads_for_nothing co s.
Proof.
  intros A HN c d init n dt cl md mm ld lm Hc H1 H2 H3. destruct (C40_new c d init n dt Hc) as (x & E & Hd & Hi & Hm & Hdt). unfold new_with_detailed_performance_options.
  rewrite E, bind_Done. destruct (C66_explicit cl md mm ld lm H1 H2 H3) as (_ & L1 & L2 & L3 & L4). exists x, (with_thresholds cl md mm ld lm). split_and!; try done.
  exact (Proof_ForeignNum.full_range _ _ Hd).
Qed.
Print Assumptions C69_new_detailed.
Example C69_new_detailed_example : exists x, new_with_detailed_performance_options 1%Z 0%Z 7%Z 4 2%Z 3 10 20 30 40 = Done (x, with_thresholds 3 10 20 30 40) /\
  foreign_data x = Done [7; 7; 7; 7]%Z /\ determine_number_of_chunks 25 Medium (with_thresholds 3 10 20 30 40) = 3.
Proof. eexists. split_and!; vm_compute; done. Qed.
