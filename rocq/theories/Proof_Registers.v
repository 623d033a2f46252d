(** The register backends. *)
From Verif Require Import Proof_ComplexOps Proof_Elem Proof_ElemOps.
From Verif Require Export Spec_Registers.

Section regs.
Context {A : Type} `{Num A} `{Flt A}.

Lemma swap_ps4 (a b c d : A) : ps_swap_iq [a; b; c; d] = [b; a; d; c].
Proof. reflexivity. Qed.
Lemma swap_ps8 (a b c d e f g h : A) : ps_swap_iq [a; b; c; d; e; f; g; h] = [b; a; d; c; f; e; h; g].
Proof. reflexivity. Qed.
Lemma swap_pd4 (a b c d : A) : pd_swap_iq [a; b; c; d] = [b; a; d; c].
Proof. reflexivity. Qed.
Lemma evens4 (a b c d : A) : evens 4 [a; b; c; d] = [a; a; c; c] /\ odds 4 [a; b; c; d] = [b; b; d; d].
Proof. split; reflexivity. Qed.
Lemma evens8 (a b c d e f g h : A) : evens 8 [a; b; c; d; e; f; g; h] = [a; a; c; c; e; e; g; g] /\
  odds 8 [a; b; c; d; e; f; g; h] = [b; b; d; d; f; f; h; h].
Proof. split; reflexivity. Qed.

Section laws.
Hypothesis add_comm : forall x y : A, (x + y = y + x)%num.
Hypothesis mul_comm : forall x y : A, (x * y = y * x)%num.

Lemma mul_re (a b x y : A) : (x * a - y * b)%num = (a * x - b * y)%num.
Proof using mul_comm. by rewrite (mul_comm x), (mul_comm y). Qed.
Lemma mul_im (a b x y : A) : (x * b + y * a)%num = (a * y + b * x)%num.
Proof using mul_comm add_comm. by rewrite (mul_comm x), (mul_comm y), add_comm. Qed.
Lemma div_re (a b x y : A) : ((b * y + a * x) / (x * x + y * y))%num = ((a * x + b * y) / (x * x + y * y))%num.
Proof using add_comm. by rewrite (add_comm (b * y)%num). Qed.
Lemma div_im (a b x y : A) : ((b * x - a * y) / (y * y + x * x))%num = ((b * x - a * y) / (x * x + y * y))%num.
Proof using add_comm. by rewrite (add_comm (y * y)%num). Qed.

Ltac eqs := repeat (apply (f_equal2 cons); [first [apply mul_re | apply mul_im | apply div_re | apply div_im]|]); reflexivity.
(** The vectorised algorithms on four and on eight lanes *)
Lemma v4 (swap : list A -> list A) : (forall a b c d, swap [a; b; c; d] = [b; a; d; c]) ->
  (forall a b c d x y, v_scale_complex 4 swap [a; b; c; d] (x, y) = as_lanes [complex_product (a, b) (x, y); complex_product (c, d) (x, y)]) /\
  (forall a b c d x y z w, v_mul_complex 4 swap [a; b; c; d] [x; y; z; w] = as_lanes [complex_product (a, b) (x, y); complex_product (c, d) (z, w)]) /\
  (forall a b c d x y z w, v_div_complex 4 swap [a; b; c; d] [x; y; z; w] = as_lanes [complex_quotient (a, b) (x, y); complex_quotient (c, d) (z, w)]).
Proof using add_comm mul_comm.
  intros Hs. split; [|split]; intros.
  - unfold v_scale_complex. rewrite Hs. cbn. eqs.
  - unfold v_mul_complex. rewrite Hs. destruct (evens4 x y z w) as [-> ->]. cbn. eqs.
  - unfold v_div_complex. rewrite Hs. destruct (evens4 a b c d) as [-> ->]. cbn [rmul zip_with addsub]. rewrite Hs. cbn [radd zip_with rdiv]. rewrite Hs. cbn. eqs.
Qed.
Lemma v8 (swap : list A -> list A) : (forall a b c d e f g h, swap [a; b; c; d; e; f; g; h] = [b; a; d; c; f; e; h; g]) ->
  (forall a b c d e f g h x y, v_scale_complex 8 swap [a; b; c; d; e; f; g; h] (x, y) =
     as_lanes [complex_product (a, b) (x, y); complex_product (c, d) (x, y); complex_product (e, f) (x, y); complex_product (g, h) (x, y)]) /\
  (forall a b c d e f g h x y z w p q r s, v_mul_complex 8 swap [a; b; c; d; e; f; g; h] [x; y; z; w; p; q; r; s] =
     as_lanes [complex_product (a, b) (x, y); complex_product (c, d) (z, w); complex_product (e, f) (p, q); complex_product (g, h) (r, s)]) /\
  (forall a b c d e f g h x y z w p q r s, v_div_complex 8 swap [a; b; c; d; e; f; g; h] [x; y; z; w; p; q; r; s] =
     as_lanes [complex_quotient (a, b) (x, y); complex_quotient (c, d) (z, w); complex_quotient (e, f) (p, q); complex_quotient (g, h) (r, s)]).
Proof using add_comm mul_comm.
  intros Hs. split; [|split]; intros.
  - unfold v_scale_complex. rewrite Hs. cbn. eqs.
  - unfold v_mul_complex. rewrite Hs. destruct (evens8 x y z w p q r s) as [-> ->]. cbn. eqs.
  - unfold v_div_complex. rewrite Hs. destruct (evens8 a b c d e f g h) as [-> ->]. cbn [rmul zip_with addsub]. rewrite Hs. cbn [radd zip_with rdiv]. rewrite Hs. cbn. eqs.
Qed.

Ltac open l := match goal with Hc : context [length l] |- _ => cbn in Hc; destruct l as [|? l]; cbn in Hc; try (exfalso; lia) end.
Ltac opens l := repeat open l; try clear l.
Ltac openz z := destruct z as [? ?].

Lemma arithmetic_f32x4 : arithmetic_ok fallback_f32x4.
Proof using add_comm mul_comm.
  split; [by intros [x y]|]. split; [|split].
  - intros l x Hl. opens l. split_and!; reflexivity.
  - intros c [x y] Hc. opens c. repeat match goal with p : A * A |- _ => destruct p end. split_and!; reflexivity.
  - intros c d Hc Hd. opens c. opens d. repeat match goal with p : A * A |- _ => destruct p end. split_and!; reflexivity.
Qed.
Lemma arithmetic_f64x2 (k : backend A) : k = fallback_f64x2 \/ k = sse_f64x2 -> arithmetic_ok k.
Proof using add_comm mul_comm.
  intros [-> | ->]; (split; [by intros [x y]|]); (split; [|split]);
  try (intros l x Hl; opens l; split_and!; reflexivity);
  try (intros c [x y] Hc; opens c; repeat match goal with p : A * A |- _ => destruct p end; split_and!; reflexivity);
  try (intros c d Hc Hd; opens c; opens d; repeat match goal with p : A * A |- _ => destruct p end; split_and!; reflexivity).
Qed.
Lemma arithmetic_v4 (k : backend A) : k = sse_f32x4 \/ k = avx_f64x4 -> arithmetic_ok k.
Proof using add_comm mul_comm.
  intros Hk. assert (exists swap, (forall a b c d, swap [a; b; c; d] = [b; a; d; c]) /\ bk_swap_iq k = swap /\
    bk_scale_complex k = v_scale_complex 4 swap /\ bk_mul_complex k = v_mul_complex 4 swap /\ bk_div_complex k = v_div_complex 4 swap) as (swap & Hs & E1 & E2 & E3 & E4).
  { destruct Hk as [-> | ->]; [exists ps_swap_iq | exists pd_swap_iq]; split_and!; reflexivity. }
  destruct (v4 swap Hs) as (V1 & V2 & V3).
  assert (Hn : reg_len (bk_reg k) = 4) by (by destruct Hk as [-> | ->]). unfold arithmetic_ok. rewrite Hn, E1, E2, E3, E4.
  split; [|split; [|split]].
  - intros [x y]. destruct Hk as [-> | ->]; reflexivity.
  - intros l x Hl. opens l. destruct Hk as [-> | ->]; split_and!; reflexivity.
  - intros c [x y] Hc. opens c. repeat match goal with p : A * A |- _ => destruct p end. split_and!.
    + destruct Hk as [-> | ->]; reflexivity.
    + apply V1.
    + apply Hs.
  - intros c d Hc Hd. opens c. opens d. repeat match goal with p : A * A |- _ => destruct p end. split; [apply V2|apply V3].
Qed.
Lemma arithmetic_v8 : arithmetic_ok avx_f32x8.
Proof using add_comm mul_comm.
  destruct (v8 ps_swap_iq swap_ps8) as (V1 & V2 & V3). split; [|split; [|split]].
  - intros [x y]. reflexivity.
  - intros l x Hl. opens l. split_and!; reflexivity.
  - intros c [x y] Hc. opens c. repeat match goal with p : A * A |- _ => destruct p end. split_and!; [reflexivity|apply V1|reflexivity].
  - intros c d Hc Hd. opens c. opens d. repeat match goal with p : A * A |- _ => destruct p end. split; [apply V2|apply V3].
Qed.
End laws.

Ltac open l := match goal with Hc : context [length l] |- _ => cbn in Hc; destruct l as [|? l]; cbn in Hc; try (exfalso; lia) end.
Ltac opens l := repeat open l; try clear l.

Lemma sums_all (k : backend A) : k ∈ [fallback_f32x4; fallback_f64x2; sse_f32x4; sse_f64x2; avx_f32x8; avx_f64x4] -> sums_ok k.
Proof.
  intros Hk. repeat (apply elem_of_cons in Hk as [->|Hk]); [..|by apply elem_of_nil in Hk]; (split;
  [intros x l Hl; cbn in Hl; opens l; reflexivity|intros z c Hc; cbn in Hc; opens c; repeat match goal with p : A * A |- _ => destruct p end; reflexivity]).
Qed.
Lemma norms_all (k : backend A) : k ∈ [fallback_f32x4; fallback_f64x2; sse_f32x4; sse_f64x2; avx_f32x8] -> norms_ok k.
Proof.
  intros Hk. repeat (apply elem_of_cons in Hk as [->|Hk]); [..|by apply elem_of_nil in Hk];
  (intros c Hc; opens c; repeat match goal with p : A * A |- _ => destruct p end; split; reflexivity).
Qed.
Lemma norms_avx_f64x4 (z w : A * A) :
  let sq := fun z => (fst z * fst z + snd z * snd z)%num in
  bk_stored avx_f64x4 (bk_complex_abs_squared avx_f64x4 (as_lanes [z; w])) = [sq z; sq z] /\
  bk_stored avx_f64x4 (bk_complex_abs avx_f64x4 (as_lanes [z; w])) = [fsqrt (sq z); fsqrt (sq z)].
Proof. destruct z, w. split; reflexivity. Qed.
End regs.
