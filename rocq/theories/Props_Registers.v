(** C62: the choice of the SIMD registers (fallback, SSE, AVX) does not change results, except for magnitudes of f64 numbers with AVX. *)
From Verif Require Import Proof_ComplexOps Proof_ElemOps Proof_Registers Proof_Registers2.
From Verif Require Import Props_Stats Props_Complex.
From Verif Require Import Spec_Registers.
Local Open Scope nat_scope.

(** Addition and multiplication commute (they do for floating point numbers, up to the payload of NaN). *)
Definition commutes {A} `{Num A} : Prop := (forall x y : A, x + y = y + x)%num /\ (forall x y : A, x * y = y * x)%num.

(** Every register type computes the arithmetic of the numbers in the register. *)
Theorem C62_arithmetic : forall {A} `{Num A} `{Flt A}, commutes ->
  forall k : backend A, k ∈ [fallback_f32x4; fallback_f64x2; sse_f32x4; sse_f64x2; avx_f32x8; avx_f64x4] -> arithmetic_ok k.
Proof.
  intros A HA HF [Ha Hm] k Hk. repeat (apply elem_of_cons in Hk as [->|Hk]); [..|by apply elem_of_nil in Hk].
  - by apply arithmetic_f32x4.
  - apply arithmetic_f64x2; auto.
  - apply arithmetic_v4; auto.
  - apply arithmetic_f64x2; auto.
  - by apply arithmetic_v8.
  - apply arithmetic_v4; auto.
Qed.
Print Assumptions C62_arithmetic.

Theorem C62_sums : forall {A} `{Num A} `{Flt A} (k : backend A),
  k ∈ [fallback_f32x4; fallback_f64x2; sse_f32x4; sse_f64x2; avx_f32x8; avx_f64x4] -> sums_ok k.
Proof. exact @sums_all. Qed.
Print Assumptions C62_sums.

(** The norms which a register stores, for all register types but one *)
Theorem C62_norms : forall {A} `{Num A} `{Flt A} (k : backend A),
  k ∈ [fallback_f32x4; fallback_f64x2; sse_f32x4; sse_f64x2; avx_f32x8] -> norms_ok k.
Proof. exact @norms_all. Qed.
Print Assumptions C62_norms.
(** The f64x4 registers of AVX store the norm of the first number twice, whatever the second number is. *)
Theorem C62_norms_refuted : forall {A} `{Num A} `{Flt A} (z w : A * A),
  let sq := fun z => (fst z * fst z + snd z * snd z)%num in
  bk_stored avx_f64x4 (bk_complex_abs_squared avx_f64x4 (as_lanes [z; w])) = [sq z; sq z] /\
  bk_stored avx_f64x4 (bk_complex_abs avx_f64x4 (as_lanes [z; w])) = [fsqrt (sq z); fsqrt (sq z)].
Proof. exact @norms_avx_f64x4. Qed.
Print Assumptions C62_norms_refuted.

(** On every machine and with every combination of features, one of these backends is used, its registers are well formed, and f64x4 is only used if
    the library was built for AVX2 and runs on a processor with AVX2. *)
Theorem C62_selection : forall {A} `{Num A} `{Flt A} (m : machine),
  selected_f32 m ∈ [fallback_f32x4; sse_f32x4; avx_f32x8] /\ selected_f64 m ∈ [fallback_f64x2; sse_f64x2; avx_f64x4] /\
  reg_ok (bk_reg (selected_f32 m)) /\ reg_ok (bk_reg (selected_f64 m)) /\
  (bk_reg (selected_f64 m) = f64x4 <-> use_avx2 m = true /\ target_avx2 m = true /\ cpu_avx2 m = true) /\
  (bk_reg (selected_f64 m) <> f64x4 -> selected_f64 m ∈ [fallback_f64x2; sse_f64x2]).
Proof.
  intros A HA HF [u1 t1 u2 t2 c1 c2]. unfold selected_f32, selected_f64. cbn [use_avx2 use_sse2 target_avx2 target_sse2 cpu_avx2 cpu_sse2].
  assert (H4 : reg_ok f32x4 /\ reg_ok f64x2 /\ reg_ok f32x8 /\ reg_ok f64x4) by (repeat split; cbn; lia). destruct H4 as (R1 & R2 & R3 & R4).
  repeat split; destruct u1, t1, u2, t2, c1, c2; cbn in *; try assumption; try discriminate; try reflexivity; try (rewrite ?elem_of_cons; tauto);
    try (by destruct H); try (intros; rewrite !elem_of_cons; tauto); try (intros E; by destruct E); try lia.
Qed.
Print Assumptions C62_selection.

(** Operations on vectors, whatever registers are chosen *)
Theorem C62_vectors : forall {A} `{Num A} `{Flt A}, commutes -> forall (m : machine) (k : backend A), k = selected_f32 m \/ k = selected_f64 m ->
  forall addr s sched (v : dvec A), elem_aligned (bk_reg k) addr -> address_ok (bk_reg k) addr v ->
  (forall c z, cplx v c -> exists v', bk_vscale_complex k addr s sched z v = Done v' /\ cplx v' (map (fun y => complex_product y z) c) /\ same_meta v v' /\ same_rest v v') /\
  (forall c z, cplx v c -> exists v', bk_offset_complex k addr s sched z v = Done v' /\ cplx v' (map (fun y => complex_sum y z) c) /\ same_meta v v' /\ same_rest v v') /\
  (forall l x, reals v l -> exists v', bk_offset_real k addr s sched x v = Done v' /\ reals v' (map (fun y => y + x)%num l) /\ same_meta v v' /\ same_rest v v') /\
  (forall c x, cplx v c -> exists v', bk_offset_real k addr s sched x v = Done v' /\ cplx v' (map (fun y => complex_sum y (x, n0)) c) /\ same_meta v v' /\ same_rest v v') /\
  (forall l x, reals v l -> exists v', bk_vscale_real k addr s sched x v = Done v' /\ reals v' (map (fun y => y * x)%num l) /\ same_meta v v' /\ same_rest v v') /\
  (forall c x, cplx v c -> exists v', bk_vscale_real k addr s sched x v = Done v' /\ cplx v' (map (fun y => (fst y * x, snd y * x)%num) c) /\ same_meta v v' /\ same_rest v v') /\
  (forall l, reals v l -> exists v', bk_vsqrt_real k addr s sched v = Done v' /\ reals v' (map fsqrt l) /\ same_meta v v' /\ same_rest v v') /\
  (forall o, len v = len o -> meta_agree v o ->
     (forall l lo, reals v l -> reals o lo -> exists v', bk_vmul k addr s sched v o = Done (v', Ok tt) /\ reals v' (zip_with nmul l lo) /\ same_meta v v' /\ same_rest v v') /\
     (forall l lo, reals v l -> reals o lo -> exists v', bk_vdiv k addr s sched v o = Done (v', Ok tt) /\ reals v' (zip_with ndiv l lo) /\ same_meta v v' /\ same_rest v v') /\
     (forall c co, cplx v c -> cplx o co -> Nat.even (alloc_len v) = true ->
        (exists v', bk_vmul k addr s sched v o = Done (v', Ok tt) /\ cplx v' (zip_with complex_product c co) /\ same_meta v v' /\ same_rest v v') /\
        (exists v', bk_vdiv k addr s sched v o = Done (v', Ok tt) /\ cplx v' (zip_with complex_quotient c co) /\ same_meta v v' /\ same_rest v v'))).
Proof.
  intros A HA HF Hc m k Hk addr s sched v Ha Hok. destruct (C62_selection m) as (S1 & S2 & R1 & R2 & _).
  assert (Hr : reg_ok (bk_reg k)) by (by destruct Hk as [-> | ->]).
  assert (Hari : arithmetic_ok k).
  { apply (C62_arithmetic Hc). destruct Hk as [-> | ->].
    - revert S1. rewrite !elem_of_cons. tauto.
    - revert S2. rewrite !elem_of_cons. tauto. }
  assert (Hfit : simd_fits (bk_reg k) addr (len v)) by (destruct Hok as [[Hok _]|Hok]; [left|right]; done).
  split; [intros; by apply bk_scale_complex_eq|]. split; [intros; by apply bk_offset_complex_eq|].
  split; [intros; by apply bk_offset_real_eq|]. split; [intros; by apply bk_offset_real_eq|].
  split; [intros; by apply bk_scale_real_eq|]. split; [intros; by apply bk_scale_real_eq|]. split; [intros; by apply bk_sqrt_eq|].
  intros o Hl Hmeta. destruct (vmul_spec (bk_reg k) addr s sched v o Hr Ha) as (_ & _ & M). destruct (vdiv_spec (bk_reg k) addr s sched v o Hr Ha) as (_ & _ & D).
  rewrite (bk_vmul_eq k Hr Hari), (bk_vdiv_eq k Hr Hari). split; [|split].
  - intros l lo Hv Ho. assert (W : whole_points v) by (intros Hcx; destruct Hv; congruence). destruct (M Hl Hmeta Hok W) as [M1 _]. by apply M1.
  - intros l lo Hv Ho. assert (W : whole_points v) by (intros Hcx; destruct Hv; congruence). destruct (D Hl Hmeta Hok W) as [D1 _]. by apply D1.
  - intros c co Hv Ho Hev. assert (W : whole_points v) by (by intros _). split; [destruct (M Hl Hmeta Hok W) as [_ M1]; by apply M1|destruct (D Hl Hmeta Hok W) as [_ D1]; by apply D1].
Qed.
Print Assumptions C62_vectors.

(** Magnitudes: for f32 on every machine, for f64 on every machine where the f64x4 registers are not used. *)
Theorem C62_magnitude : forall {A} `{Num A} `{Flt A}, (forall a b, fhypot a b = fsqrt (a * a + b * b)%num) ->
  forall (m : machine) (k : backend A), k = selected_f32 m \/ (k = selected_f64 m /\ bk_reg k <> f64x4) ->
  forall addr s sched (v : dvec A) c, elem_aligned (bk_reg k) addr -> address_ok (bk_reg k) addr v -> cplx v c ->
  (forall b, typed v -> lends b v (length c) ->
    (exists v' b', bk_magnitude_b k addr s sched b v = Done (v', b') /\ reals v' (map (fun x => fhypot (fst x) (snd x)) c) /\ converted v v') /\
    (exists v' b', bk_magnitude_squared_b k addr s sched b v = Done (v', b') /\ reals v' (map (fun x => (fst x * fst x + snd x * snd x)%num) c) /\ converted v v')) /\
  (forall dst, alloc_len v = len v -> takes dst (len v) ->
    (exists d, bk_get_magnitude k addr s sched v dst = Done d /\ got v (map (fun x => fhypot (fst x) (snd x)) c) dst d) /\
    (exists d, bk_get_magnitude_squared k addr s sched v dst = Done d /\ got v (map (fun x => (fst x * fst x + snd x * snd x)%num) c) dst d)).
Proof.
  intros A HA HF Hhyp m k Hk addr s sched v c Ha Hok Hv. destruct (C62_selection m) as (S1 & S2 & R1 & R2 & _ & S3).
  assert (Hr : reg_ok (bk_reg k)) by (by destruct Hk as [-> | [-> _]]).
  assert (Hn : norms_ok k).
  { apply C62_norms. destruct Hk as [-> | [-> E]].
    - revert S1. rewrite !elem_of_cons. tauto.
    - specialize (S3 E). revert S3. rewrite !elem_of_cons. tauto. }
  destruct (norms_halves k Hr Hn) as [N1 N2].
  assert (N2' : halves (reg_len (bk_reg k)) (fun x => bk_stored k (bk_complex_abs k x)) cnorm).
  { intros b Hb. rewrite (N2 b Hb). apply map_ext. intros [x y]. symmetry. apply Hhyp. }
  split.
  - intros b Ht Hb. split; [by apply (simd_b_spec _ cnorm (bk_reg k) addr s sched b v c) | by apply (simd_b_spec _ cabs2 (bk_reg k) addr s sched b v c)].
  - intros dst Hal Hd. split; [by apply (get_into_simd_spec _ cnorm (bk_reg k) addr s sched v dst c) | by apply (get_into_simd_spec _ cabs2 (bk_reg k) addr s sched v dst c)].
Qed.
Print Assumptions C62_magnitude.

(** With AVX every second magnitude of f64 numbers within the registers is replaced by the one before. *)
Theorem C62_magnitude_refuted : forall {A} `{Num A} `{Flt A}, (forall a b, fhypot a b = fsqrt (a * a + b * b)%num) ->
  forall m, use_avx2 m = true -> target_avx2 m = true -> cpu_avx2 m = true ->
  let k : backend A := selected_f64 m in
  forall addr s sched (v : dvec A) c, elem_aligned (bk_reg k) addr -> address_ok (bk_reg k) addr v -> cplx v c ->
  (forall b, typed v -> lends b v (length c) ->
    (exists v' b' l', bk_magnitude_b k addr s sched b v = Done (v', b') /\ reals v' l' /\ doubled_from addr (map (fun x => fhypot (fst x) (snd x)) c) l' /\ converted v v') /\
    (exists v' b' l', bk_magnitude_squared_b k addr s sched b v = Done (v', b') /\ reals v' l' /\
       doubled_from addr (map (fun x => (fst x * fst x + snd x * snd x)%num) c) l' /\ converted v v')) /\
  (forall dst, alloc_len v = len v -> takes dst (len v) ->
    (exists d l', bk_get_magnitude k addr s sched v dst = Done d /\ got v l' dst d /\ doubled_from addr (map (fun x => fhypot (fst x) (snd x)) c) l') /\
    (exists d l', bk_get_magnitude_squared k addr s sched v dst = Done d /\ got v l' dst d /\
       doubled_from addr (map (fun x => (fst x * fst x + snd x * snd x)%num) c) l')).
Proof.
  intros A HA HF Hhyp m U T P k addr s sched v c Ha Hok Hv.
  assert (Hk : k = avx_f64x4) by (unfold k, selected_f64; by rewrite U, T, P). clearbody k. subst k. change (bk_reg avx_f64x4) with f64x4 in *.
  assert (Hr : reg_ok f64x4) by (repeat split; cbn; lia). pose proof (address_ok_cplx _ _ _ _ Hv Hok) as Hf.
  assert (H1 : half_registers 4 (fun x => bk_stored avx_f64x4 (bk_complex_abs avx_f64x4 x)) (fun c => first_of_two (map cnorm c))).
  { apply doubled_half_registers. intros z w. destruct (norms_avx_f64x4 z w) as [_ E]. unfold as_lanes in E. rewrite E. unfold cnorm. by rewrite Hhyp. }
  assert (H2 : half_registers 4 (fun x => bk_stored avx_f64x4 (bk_complex_abs_squared avx_f64x4 x)) (fun c => first_of_two (map cabs2 c))).
  { apply doubled_half_registers. intros z w. destruct (norms_avx_f64x4 z w) as [E _]. unfold as_lanes in E. by rewrite E. }
  split.
  - intros b Ht Hb. split.
    + destruct (simd_b_gen _ cnorm _ f64x4 addr s sched b v c Hr Ha Hv Ht Hok Hb H1) as (v' & b' & E & (L & C & R & Hcut & Hd) & Hc).
      exists v', b', (map cnorm L ++ first_of_two (map cnorm C) ++ map cnorm R). split; [exact E|]. split; [exact Hd|]. split; [|exact Hc]. by apply (doubled_cut cnorm).
    + destruct (simd_b_gen _ cabs2 _ f64x4 addr s sched b v c Hr Ha Hv Ht Hok Hb H2) as (v' & b' & E & (L & C & R & Hcut & Hd) & Hc).
      exists v', b', (map cabs2 L ++ first_of_two (map cabs2 C) ++ map cabs2 R). split; [exact E|]. split; [exact Hd|]. split; [|exact Hc]. by apply (doubled_cut cabs2).
  - intros dst Hal Hd. split.
    + destruct (get_into_simd_gen _ cnorm _ f64x4 addr s sched v dst c Hr Ha Hv Hok Hal Hd H1) as (d & E & L & C & R & Hcut & Hg).
      exists d, (map cnorm L ++ first_of_two (map cnorm C) ++ map cnorm R). split; [exact E|]. split; [exact Hg|]. by apply (doubled_cut cnorm).
    + destruct (get_into_simd_gen _ cabs2 _ f64x4 addr s sched v dst c Hr Ha Hv Hok Hal Hd H2) as (d & E & L & C & R & Hcut & Hg).
      exists d, (map cabs2 L ++ first_of_two (map cabs2 C) ++ map cabs2 R). split; [exact E|]. split; [exact Hg|]. by apply (doubled_cut cabs2).
Qed.
Print Assumptions C62_magnitude_refuted.

(** A machine with AVX: five numbers at an address which is a multiple of 32. The second and the fourth magnitude are wrong. *)
Definition with_avx := Machine true true true true true true.
Definition without_avx := Machine true true true true true false.
Example C62_example : commutes (A := Z) /\ let v := ex_vec NComplex [3; 4; 6; 8; 0; 1; 5; 12; 8; 6]%Z in let dst := ex_vec NReal []%Z in
  cplx v [(3, 4); (6, 8); (0, 1); (5, 12); (8, 6)]%Z /\ typed v /\ address_ok f64x4 64 v /\ elem_aligned f64x4 64 /\ alloc_len v = len v /\ takes dst (len v) /\
  (exists d, bk_get_magnitude (selected_f64 with_avx) 64 ex_set [] v dst = Done d /\ reals d [5; 5; 1; 1; 10]%Z) /\
  (exists d, bk_get_magnitude (selected_f64 without_avx) 64 ex_set [] v dst = Done d /\ reals d [5; 10; 1; 13; 10]%Z) /\
  (exists d, bk_get_magnitude (selected_f32 with_avx) 64 ex_set [] v dst = Done d /\ reals d [5; 10; 1; 13; 10]%Z) /\
  (exists w, bk_vscale_complex (selected_f64 with_avx) 64 ex_set [] (0, 1)%Z v = Done w /\ cplx w [(-4, 3); (-8, 6); (-1, 0); (-12, 5); (-6, 8)]%Z).
Proof.
  split; [split; intros; cbn; lia|]. split_and!; try (vm_compute; done).
  - left. split; [done|]. intros; done.
  - eexists. split; [vm_compute; reflexivity|vm_compute; done].
  - eexists. split; [vm_compute; reflexivity|vm_compute; done].
  - eexists. split; [vm_compute; reflexivity|vm_compute; done].
  - eexists. split; [vm_compute; reflexivity|vm_compute; done].
Qed.
