(** Model of the register backends vector/src/simd_extensions/{fallback,sse,avx}.rs, of the choice between them (lib.rs:165-205,
    simd_extensions/x86.rs) and of the vector operations with the registers of a backend. No proofs here.

    A register is the list of its lanes. The intrinsics are modelled after Intel's description of the instructions and are part of the trusted base;
    [packed_simd] arithmetic ([+], [*], [/], [sqrt]) works lane by lane. avx512.rs is not modelled (it lacks [swap_iq] and does not compile). [max] and
    [min] are only used by the approximations, which are not modelled. *)
From Verif Require Export Model_Complex.

Section registers.
Context {A : Type} `{Num A} `{Flt A}.

(** [extract]: simd_extensions/fallback.rs:40-49, 71-78; every index in the code is within the register *)
Definition lane (reg : list A) (i : nat) : A := nth i reg n0.

(** ** Intrinsics *)
(** [_mm_addsub_ps], [_mm256_addsub_ps], [_mm256_addsub_pd] (used in sse.rs:51-63, 66-90, 93-122, avx.rs:53-65, 68-98, 101-136, 242-254, 257-279, 282-309): subtracts in even lanes, adds in odd lanes *)
Fixpoint addsub (a b : list A) : list A :=
  match a, b with
  | x0 :: x1 :: a', y0 :: y1 :: b' => (x0 - y0)%num :: (x1 + y1)%num :: addsub a' b'
  | _, _ => []
  end.
(** Blocks of 128 bits with four lanes *)
Fixpoint blocks4 (f : list A -> list A) (l : list A) : list A :=
  match l with a :: b :: c :: d :: l' => f [a; b; c; d] ++ blocks4 f l' | _ => [] end.
(** [_mm_permute_ps], [_mm256_permute_ps] (used in sse.rs:176-178, avx.rs:199-201): lane [i] of each block is the one given by bits 2i and 2i+1 *)
Definition permute_ps (reg : list A) (imm : nat) : list A :=
  blocks4 (fun b => map (fun i => lane b ((imm / 4 ^ i) mod 4)) [0; 1; 2; 3]) reg.
(** [_mm256_permute_pd] (used in avx.rs:363-365): bit [i] chooses between the two lanes of the block for lane [i] *)
Definition permute_pd (reg : list A) (imm : nat) : list A :=
  map (fun i => lane reg (2 * (i / 2) + (imm / 2 ^ i) mod 2)) (seq 0 (length reg)).
(** [_mm_hadd_ps], [_mm256_hadd_ps] (used in sse.rs:125-133, avx.rs:139-147), both arguments are the same register *)
Definition hadd_ps_self (reg : list A) : list A :=
  blocks4 (fun b => [lane b 0 + lane b 1; lane b 2 + lane b 3; lane b 0 + lane b 1; lane b 2 + lane b 3]%num) reg.
(** [_mm256_hadd_pd] (used in avx.rs:312-320), both arguments are the same register: the blocks have two lanes *)
Fixpoint hadd_pd_self (reg : list A) : list A :=
  match reg with
  | a :: b :: l' => (a + b)%num :: (a + b)%num :: hadd_pd_self l'
  | _ => []
  end.
(** sse.rs:11, avx.rs:9: 0b1011_0001 *)
Definition SWAP_IQ_PS : nat := 177.
(** avx.rs:11: 0b0101 *)
Definition SWAP_IQ_PD : nat := 5.

(** The methods of [Simd]: simd_extensions/mod.rs:11-75. [bk_stored] are the lanes which [store_half] writes one after the other. *)
Record backend := Backend {
  bk_reg : reg_type;
  bk_from_complex : A * A -> list A;
  bk_add_real : list A -> A -> list A;
  bk_add_complex : list A -> A * A -> list A;
  bk_scale_real : list A -> A -> list A;
  bk_scale_complex : list A -> A * A -> list A;
  bk_mul_complex : list A -> list A -> list A;
  bk_div_complex : list A -> list A -> list A;
  bk_complex_abs_squared : list A -> list A;
  bk_complex_abs : list A -> list A;
  bk_sqrt : list A -> list A;
  bk_stored : list A -> list A;
  bk_sum_real : list A -> A;
  bk_sum_complex : list A -> A * A;
  bk_swap_iq : list A -> list A;
}.

(** Lane by lane [Add], [Mul], [Div]: fallback.rs:84-146; packed_simd for sse.rs and avx.rs *)
Definition radd (a b : list A) : list A := zip_with nadd a b.
(** fallback.rs:100-106, 132-138 *)
Definition rmul (a b : list A) : list A := zip_with nmul a b.
(** fallback.rs:108-114, 140-146 *)
Definition rdiv (a b : list A) : list A := zip_with ndiv a b.
(** fallback.rs:23-25, 59-61 *)
Definition rsplat (n : nat) (x : A) : list A := replicate n x.

(** ** fallback.rs *)
(** fallback.rs:163-165 *)
Definition f32x4_from_complex (x : A * A) : list A := [fst x; snd x; fst x; snd x].
(** fallback.rs:186-192 *)
Definition fb32_scale_complex (reg : list A) (x : A * A) : list A :=
  let a := cmul (lane reg 0, lane reg 1) x in
  let b := cmul (lane reg 2, lane reg 3) x in
  [fst a; snd a; fst b; snd b].
(** fallback.rs:195-203 *)
Definition fb32_mul_complex (reg val : list A) : list A :=
  let a := cmul (lane reg 0, lane reg 1) (lane val 0, lane val 1) in
  let b := cmul (lane reg 2, lane reg 3) (lane val 2, lane val 3) in
  [fst a; snd a; fst b; snd b].
(** fallback.rs:206-214 *)
Definition fb32_div_complex (reg val : list A) : list A :=
  let a := cdiv (lane reg 0, lane reg 1) (lane val 0, lane val 1) in
  let b := cdiv (lane reg 2, lane reg 3) (lane val 2, lane val 3) in
  [fst a; snd a; fst b; snd b].
(** fallback.rs:217-220 *)
Definition fb32_abs_squared (reg : list A) : list A :=
  let sq := rmul reg reg in [lane sq 0 + lane sq 1; lane sq 2 + lane sq 3; n0; n0]%num.
(** fallback.rs:223-231 *)
Definition fb32_abs (reg : list A) : list A :=
  let sq := rmul reg reg in [fsqrt (lane sq 0 + lane sq 1)%num; fsqrt (lane sq 2 + lane sq 3)%num; n0; n0].
(** fallback.rs:148-284 *)
Definition fallback_f32x4 : backend := {|
  bk_reg := f32x4;
  bk_from_complex := f32x4_from_complex;
  bk_add_real := fun reg x => radd reg (rsplat 4 x);
  bk_add_complex := fun reg x => radd reg [fst x; snd x; fst x; snd x];
  bk_scale_real := fun reg x => rmul reg (rsplat 4 x);
  bk_scale_complex := fb32_scale_complex;
  bk_mul_complex := fb32_mul_complex;
  bk_div_complex := fb32_div_complex;
  bk_complex_abs_squared := fb32_abs_squared;
  bk_complex_abs := fb32_abs;
  bk_sqrt := fun reg => [fsqrt (lane reg 0); fsqrt (lane reg 1); fsqrt (lane reg 2); fsqrt (lane reg 3)];
  bk_stored := fun reg => [lane reg 0; lane reg 1];
  bk_sum_real := fun reg => (lane reg 0 + lane reg 1 + lane reg 2 + lane reg 3)%num;
  bk_sum_complex := fun reg => (lane reg 0 + lane reg 2, lane reg 1 + lane reg 3)%num;
  bk_swap_iq := fun reg => [lane reg 1; lane reg 0; lane reg 3; lane reg 2];
|}.
(** fallback.rs:323-327, sse.rs:219-223 *)
Definition x2_scale_complex (reg : list A) (x : A * A) : list A :=
  let r := cmul (lane reg 0, lane reg 1) x in [fst r; snd r].
(** fallback.rs:330-335, sse.rs:226-231 *)
Definition x2_mul_complex (reg val : list A) : list A :=
  let r := cmul (lane reg 0, lane reg 1) (lane val 0, lane val 1) in [fst r; snd r].
(** fallback.rs:338-343, sse.rs:234-239 *)
Definition x2_div_complex (reg val : list A) : list A :=
  let r := cdiv (lane reg 0, lane reg 1) (lane val 0, lane val 1) in [fst r; snd r].
(** fallback.rs:346-351, sse.rs:242-247 *)
Definition x2_abs_squared (reg : list A) : list A :=
  [lane reg 0 * lane reg 0 + lane reg 1 * lane reg 1; n0]%num.
(** fallback.rs:354-359, sse.rs:250-255 *)
Definition x2_abs (reg : list A) : list A := [fsqrt (lane reg 0 * lane reg 0 + lane reg 1 * lane reg 1)%num; n0].
(** fallback.rs:288-395; sse.rs:181-291 is the same but for [sqrt], which works on all lanes at once *)
Definition fallback_f64x2 : backend := {|
  bk_reg := f64x2;
  bk_from_complex := fun x => [fst x; snd x];
  bk_add_real := fun reg x => radd reg (rsplat 2 x);
  bk_add_complex := fun reg x => radd reg [fst x; snd x];
  bk_scale_real := fun reg x => rmul reg (rsplat 2 x);
  bk_scale_complex := x2_scale_complex;
  bk_mul_complex := x2_mul_complex;
  bk_div_complex := x2_div_complex;
  bk_complex_abs_squared := x2_abs_squared;
  bk_complex_abs := x2_abs;
  bk_sqrt := fun reg => [fsqrt (lane reg 0); fsqrt (lane reg 1)];
  bk_stored := fun reg => [lane reg 0];
  bk_sum_real := fun reg => (lane reg 0 + lane reg 1)%num;
  bk_sum_complex := fun reg => (lane reg 0, lane reg 1);
  bk_swap_iq := fun reg => [lane reg 1; lane reg 0];
|}.

(** ** sse.rs *)
(** sse.rs:51-63, avx.rs:53-65, 242-254 *)
Definition v_scale_complex (n : nat) (swap_iq : list A -> list A) (reg : list A) (x : A * A) : list A :=
  let parallel := rmul (rsplat n (fst x)) reg in
  let cross := rmul (rsplat n (snd x)) (swap_iq reg) in
  addsub parallel cross.
(** The registers [scaling_real] and [scaling_imag] of [mul_complex] and [div_complex]: sse.rs:67-79, 94-106, avx.rs:69-88, 102-121, 258-269, 283-294 *)
Definition evens (n : nat) (val : list A) : list A := map (fun i => lane val (2 * (i / 2))) (seq 0 n).
(** The same lines *)
Definition odds (n : nat) (val : list A) : list A := map (fun i => lane val (2 * (i / 2) + 1)) (seq 0 n).
(** sse.rs:66-90, avx.rs:68-98, 257-279 *)
Definition v_mul_complex (n : nat) (swap_iq : list A -> list A) (reg val : list A) : list A :=
  let scaling_real := evens n val in
  let scaling_imag := odds n val in
  let parallel := rmul scaling_real reg in
  let cross := rmul scaling_imag (swap_iq reg) in
  addsub parallel cross.
(** sse.rs:93-122, avx.rs:101-136, 282-309 *)
Definition v_div_complex (n : nat) (swap_iq : list A -> list A) (reg val : list A) : list A :=
  let scaling_imag := evens n reg in
  let scaling_real := odds n reg in
  let parallel := rmul scaling_real val in
  let shuffled := swap_iq val in
  let cross := rmul scaling_imag shuffled in
  let mul := addsub parallel cross in
  let square := rmul shuffled shuffled in
  let square_shuffled := swap_iq square in
  let sum := radd square square_shuffled in
  swap_iq (rdiv mul sum).
(** sse.rs:125-133, avx.rs:139-147 *)
Definition ps_abs_squared (reg : list A) : list A := hadd_ps_self (rmul reg reg).
(** avx.rs:312-320 *)
Definition pd_abs_squared (reg : list A) : list A := hadd_pd_self (rmul reg reg).
(** sse.rs:176-178, avx.rs:199-201 *)
Definition ps_swap_iq (reg : list A) : list A := permute_ps reg SWAP_IQ_PS.
(** avx.rs:363-365 *)
Definition pd_swap_iq (reg : list A) : list A := permute_pd reg SWAP_IQ_PD.
(** sse.rs:13-179 *)
Definition sse_f32x4 : backend := {|
  bk_reg := f32x4;
  bk_from_complex := f32x4_from_complex;
  bk_add_real := fun reg x => radd reg (rsplat 4 x);
  bk_add_complex := fun reg x => radd reg [fst x; snd x; fst x; snd x];
  bk_scale_real := fun reg x => rmul reg (rsplat 4 x);
  bk_scale_complex := v_scale_complex 4 ps_swap_iq;
  bk_mul_complex := v_mul_complex 4 ps_swap_iq;
  bk_div_complex := v_div_complex 4 ps_swap_iq;
  bk_complex_abs_squared := ps_abs_squared;
  bk_complex_abs := fun reg => map fsqrt (ps_abs_squared reg);
  bk_sqrt := map fsqrt;
  bk_stored := fun reg => [lane reg 0; lane reg 1];
  bk_sum_real := fun reg => (lane reg 0 + lane reg 1 + lane reg 2 + lane reg 3)%num;
  bk_sum_complex := fun reg => (lane reg 0 + lane reg 2, lane reg 1 + lane reg 3)%num;
  bk_swap_iq := ps_swap_iq;
|}.
(** sse.rs:181-291 *)
Definition sse_f64x2 : backend := {|
  bk_reg := f64x2;
  bk_from_complex := fun x => [fst x; snd x];
  bk_add_real := fun reg x => radd reg (rsplat 2 x);
  bk_add_complex := fun reg x => radd reg [fst x; snd x];
  bk_scale_real := fun reg x => rmul reg (rsplat 2 x);
  bk_scale_complex := x2_scale_complex;
  bk_mul_complex := x2_mul_complex;
  bk_div_complex := x2_div_complex;
  bk_complex_abs_squared := x2_abs_squared;
  bk_complex_abs := x2_abs;
  bk_sqrt := map fsqrt;
  bk_stored := fun reg => [lane reg 0];
  bk_sum_real := fun reg => (lane reg 0 + lane reg 1)%num;
  bk_sum_complex := fun reg => (lane reg 0, lane reg 1);
  bk_swap_iq := fun reg => [lane reg 1; lane reg 0];
|}.

(** ** avx.rs *)
(** avx.rs:28-32 *)
Definition f32x8_from_complex (x : A * A) : list A := [fst x; snd x; fst x; snd x; fst x; snd x; fst x; snd x].
(** avx.rs:13-202 *)
Definition avx_f32x8 : backend := {|
  bk_reg := f32x8;
  bk_from_complex := f32x8_from_complex;
  bk_add_real := fun reg x => radd reg (rsplat 8 x);
  bk_add_complex := fun reg x => radd reg (f32x8_from_complex x);
  bk_scale_real := fun reg x => rmul reg (rsplat 8 x);
  bk_scale_complex := v_scale_complex 8 ps_swap_iq;
  bk_mul_complex := v_mul_complex 8 ps_swap_iq;
  bk_div_complex := v_div_complex 8 ps_swap_iq;
  bk_complex_abs_squared := ps_abs_squared;
  bk_complex_abs := fun reg => map fsqrt (ps_abs_squared reg);
  bk_sqrt := map fsqrt;
  bk_stored := fun reg => [lane reg 0; lane reg 1; lane reg 4; lane reg 5];
  bk_sum_real := fun reg => (lane reg 0 + lane reg 1 + lane reg 2 + lane reg 3 + lane reg 4 + lane reg 5 + lane reg 6 + lane reg 7)%num;
  bk_sum_complex := fun reg => (lane reg 0 + lane reg 2 + lane reg 4 + lane reg 6, lane reg 1 + lane reg 3 + lane reg 5 + lane reg 7)%num;
  bk_swap_iq := ps_swap_iq;
|}.
(** avx.rs:204-366 *)
Definition avx_f64x4 : backend := {|
  bk_reg := f64x4;
  bk_from_complex := f32x4_from_complex;
  bk_add_real := fun reg x => radd reg (rsplat 4 x);
  bk_add_complex := fun reg x => radd reg [fst x; snd x; fst x; snd x];
  bk_scale_real := fun reg x => rmul reg (rsplat 4 x);
  bk_scale_complex := v_scale_complex 4 pd_swap_iq;
  bk_mul_complex := v_mul_complex 4 pd_swap_iq;
  bk_div_complex := v_div_complex 4 pd_swap_iq;
  bk_complex_abs_squared := pd_abs_squared;
  bk_complex_abs := fun reg => map fsqrt (pd_abs_squared reg);
  bk_sqrt := map fsqrt;
  bk_stored := fun reg => [lane reg 0; lane reg 1];
  bk_sum_real := fun reg => (lane reg 0 + lane reg 1 + lane reg 2 + lane reg 3)%num;
  bk_sum_complex := fun reg => (lane reg 0 + lane reg 2, lane reg 1 + lane reg 3)%num;
  bk_swap_iq := pd_swap_iq;
|}.

(** ** The choice of the registers *)
(** The features the library was built with, the target of the compiler, and what the machine has *)
(** simd_extensions/x86.rs:3-15, lib.rs:165-205 *)
Record machine := Machine { use_sse2 : bool; target_sse2 : bool; use_avx2 : bool; target_avx2 : bool; cpu_sse2 : bool; cpu_avx2 : bool }.
(** lib.rs:165-184: [RegAvx], [RegSse], [RegFallback] of f32, and x86.rs:3-15 (the method form, which all operations on vectors use) *)
Definition selected_f32 (m : machine) : backend :=
  if use_avx2 m && cpu_avx2 m then (if use_avx2 m && target_avx2 m then avx_f32x8 else fallback_f32x4)
  else if use_sse2 m && cpu_sse2 m then (if use_sse2 m && target_sse2 m then sse_f32x4 else fallback_f32x4)
  else fallback_f32x4.
(** lib.rs:186-205 and x86.rs:3-15 *)
Definition selected_f64 (m : machine) : backend :=
  if use_avx2 m && cpu_avx2 m then (if use_avx2 m && target_avx2 m then avx_f64x4 else fallback_f64x2)
  else if use_sse2 m && cpu_sse2 m then (if use_sse2 m && target_sse2 m then sse_f64x2 else fallback_f64x2)
  else fallback_f64x2.

(** ** Operations on vectors with the registers of a backend *)
(** elementary.rs:290-306 *)
Definition bk_offset_real (k : backend) (addr : nat) (s : settings) (sched : list nat) (offset : A) (v : dvec A) : run (dvec A) :=
  if is_complex v then
    simd_complex_operation (bk_reg k) addr s sched (fun x => radd x (bk_from_complex k (offset, n0))) (fun x => cadd x (offset, n0)) Small v
  else simd_real_operation (bk_reg k) addr s sched (fun x => bk_add_real k x offset) (fun x => x + offset)%num Small v.
(** elementary.rs:316-324 *)
Definition bk_offset_complex (k : backend) (addr : nat) (s : settings) (sched : list nat) (offset : A * A) (v : dvec A) : run (dvec A) :=
  if negb (is_complex v) then Done (mark_vector_as_invalid v)
  else simd_complex_operation (bk_reg k) addr s sched (fun x => radd x (bk_from_complex k offset)) (fun x => cadd x offset) Small v.
(** elementary.rs:334-341 *)
Definition bk_vscale_real (k : backend) (addr : nat) (s : settings) (sched : list nat) (factor : A) (v : dvec A) : run (dvec A) :=
  simd_real_operation (bk_reg k) addr s sched (fun x => bk_scale_real k x factor) (fun x => x * factor)%num Small v.
(** elementary.rs:351-359 *)
Definition bk_vscale_complex (k : backend) (addr : nat) (s : settings) (sched : list nat) (factor : A * A) (v : dvec A) : run (dvec A) :=
  if negb (is_complex v) then Done (mark_vector_as_invalid v)
  else simd_complex_operation (bk_reg k) addr s sched (fun x => bk_scale_complex k x factor) (fun x => cmul x factor) Small v.
(** elementary.rs:558-572 *)
Definition bk_vmul (k : backend) (addr : nat) (s : settings) (sched : list nat) (v o : dvec A) : run (dvec A * result unit) :=
  if negb (len v =? len o) then Done (v, Err InputMustHaveTheSameSize)
  else if meta_disagree v o then Done (v, Err InputMetaDataMustAgree)
  else if is_complex v then binary_complex_op (bk_reg k) addr s sched (bk_mul_complex k) cmul v o
  else binary_op (bk_reg k) addr s sched rmul nmul v o.
(** elementary.rs:574-588 *)
Definition bk_vdiv (k : backend) (addr : nat) (s : settings) (sched : list nat) (v o : dvec A) : run (dvec A * result unit) :=
  if negb (len v =? len o) then Done (v, Err InputMustHaveTheSameSize)
  else if meta_disagree v o then Done (v, Err InputMetaDataMustAgree)
  else if is_complex v then binary_complex_op (bk_reg k) addr s sched (bk_div_complex k) cdiv v o
  else binary_op (bk_reg k) addr s sched rdiv ndiv v o.
(** trigonometry_and_powers.rs:308-318 *)
Definition bk_vsqrt_real (k : backend) (addr : nat) (s : settings) (sched : list nat) (v : dvec A) : run (dvec A) :=
  simd_real_operation (bk_reg k) addr s sched (bk_sqrt k) fsqrt Small v.
(** complex_to_real.rs:417-431; [store_half] of the result *)
Definition bk_magnitude_b (k : backend) (addr : nat) := complex_to_real_simd_b (fun x => bk_stored k (bk_complex_abs k x)) cnorm (bk_reg k) addr.
(** complex_to_real.rs:433-447 *)
Definition bk_magnitude_squared_b (k : backend) (addr : nat) :=
  complex_to_real_simd_b (fun x => bk_stored k (bk_complex_abs_squared k x)) cabs2 (bk_reg k) addr.
(** complex_to_real.rs:635-646 *)
Definition bk_get_magnitude (k : backend) (addr : nat) (s : settings) (sched : list nat) :=
  get_into (simd_into_target (fun x => bk_stored k (bk_complex_abs k x)) cnorm (bk_reg k) addr s sched).
(** complex_to_real.rs:648-659 *)
Definition bk_get_magnitude_squared (k : backend) (addr : nat) (s : settings) (sched : list nat) :=
  get_into (simd_into_target (fun x => bk_stored k (bk_complex_abs_squared k x)) cabs2 (bk_reg k) addr s sched).
End registers.
Arguments backend : clear implicits.
