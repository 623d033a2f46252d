(** Model of vector/src/simd_extensions/approximations.rs: the approximations which the registers of the SSE2 and AVX builds use, and of the vector methods
    (vector/src/vector_types/real/real_ops.rs:302-373) with these registers. No proofs here.

    A lane at a time: the intrinsics work on the lanes independently. The numbers are a type with the operations [Num], [Flt] and the access to the
    representation of floating point numbers [Bits]. *)
From Verif Require Export Model_Approx.

(** What approximations.rs does with the bits of a number; a record without laws. Casts between registers of the same size ([transmute]) have no counterpart.
    The integers are unbounded here: a cast of a number which doesn't fit into 32 (64) bits is not modelled. *)
(** approximations.rs:48-66, 85-96, 108-115, 168-173, 184-191, 211-218 *)
Class Bits (A : Type) := {
  lit : Z -> positive -> A;    (* a literal: numerator and denominator *)
  exponent_bits : A -> Z;      (* the bits of a positive number shifted to the right by [mant_len]: its biased exponent *)
  half_mantissa : A -> A;      (* the fraction of a positive number with the exponent of 0.5: [(bits & inv_mant_mask) | bits of 0.5] *)
  from_exponent : Z -> A;      (* the number with the bits [e << mant_len] *)
  bias : Z;                    (* 0x7f, 0x3ff *)
  min_norm : A;                (* the smallest normalised positive number *)
  trunc : A -> Z;              (* the cast to an integer: rounds towards zero *)
  of_int : Z -> A;             (* the cast back *)
  negative : A -> bool;        (* the sign bit *)
}.

Section lanes.
Context {A : Type} `{Num A} `{Flt A} `{Bits A}.

(** A literal with [n] digits behind the point (approximations.rs:72-82) *)
Definition dec (m : Z) (n : positive) : A := lit m (10 ^ n).

(** [y * x + c] for one coefficient after the other (approximations.rs:122-138, 200-210) *)
Definition horner (x : A) (first : A) (cs : list A) : A := fold_left (fun y c => y * x + c)%num cs first.

(** approximations.rs:44-155. The comparison with [sqrthf] is one of the bits as unsigned integers, which for positive numbers is the one of the numbers.
    Simplification: [x <= 0] is [not (0 < x)] here, which is not the same for a NaN. *)
Definition ln_lane (x : A) : A :=
  let half := dec 5 1 in
  let sqrthf := fsqrt (lit 2 1) in
  let invalid := negb (nltb n0 x) in
  let x := if nltb min_norm x then x else min_norm in
  let e := (of_int (exponent_bits x - bias) + n1)%num in
  let x := half_mantissa x in
  let mask := nltb x sqrthf in
  let tmp := if mask then x else n0 in
  let x := (x - n1)%num in
  let e := (e - (if mask then n1 else n0))%num in
  let x := (x + tmp)%num in
  let z := (x * x)%num in
  let y := horner x (dec 70376836292 12)
             [dec (-115146103100) 12; dec 116769987400 12; dec (-124201408460) 12; dec 142493227870 12; dec (-166680576650) 12;
              dec 200007147650 12; dec (-249999939930) 12; dec 333333311740 12] in
  let y := (y * x)%num in
  let y := (y * z)%num in
  let y := (y + e * dec (-21219444) 11)%num in
  let y := (y - z * half)%num in
  let x := (x + y)%num in
  let x := (x + e * dec 693359375 9)%num in
  if invalid then nnan else x.

(** approximations.rs:157-221 *)
Definition exp_lane (x : A) : A :=
  let half := dec 5 1 in
  let exp_hi := dec 883762626647949 13 in
  let exp_lo := dec (-883762626647949) 13 in
  let x := if nltb x exp_hi then x else exp_hi in
  let x := if nltb exp_lo x then x else exp_lo in
  let fx := (x * dec 144269504088896341 17 + half)%num in
  let tmp := of_int (trunc fx) in
  let fx := (tmp - (if nltb fx tmp then n1 else n0))%num in
  let x := (x - fx * dec 693359375 9 - fx * dec (-21219444) 11)%num in
  let z := (x * x)%num in
  let y := horner x (dec 19875691500 14) [dec 139819995070 14; dec 833345190730 14; dec 4166579589400 14; dec 16666665459000 14; dec 50000001201000 14] in
  let y := (y * z)%num in
  let y := (y + x)%num in
  let y := (y + n1)%num in
  let pow2n := from_exponent (trunc fx + bias) in
  (y * pow2n)%num.

(** approximations.rs:233-348. The integers of two's complement are integers: [!a] is [-a - 1], and [a & 2], [a & 4] are the bits 1 and 2 of [a]. The
    polynomial is selected by masks and an addition with 0. *)
Definition sin_cos_lane (is_sin : bool) (x : A) : A :=
  let half := dec 5 1 in
  let sign := negative x in
  let x := if negative x then nopp x else x in
  let y := (x * dec 127323954473516 14)%num in
  let j := Z.land (trunc y + 1) (Z.lnot 1) in
  let y := of_int j in
  let j := if is_sin then j else (j - 2)%Z in
  let flip := if is_sin then Z.testbit j 2 else Z.testbit (Z.lnot j) 2 in
  let poly_mask := negb (Z.testbit j 1) in
  let sign := if is_sin then xorb sign flip else flip in
  let xmm1 := (y * dec (-78515625) 8)%num in
  let xmm2 := (y * dec (-24187564849853515625) 23)%num in
  let xmm3 := (y * dec (-377489497744594108) 25)%num in
  let x := (x + xmm1)%num in
  let x := (x + xmm2)%num in
  let x := (x + xmm3)%num in
  let z := (x * x)%num in
  let y := horner z (dec 2443315711809948 20) [dec (-1388731625493765) 18; dec 4166664568298827 17] in
  let y := (y * z * z)%num in
  let y := (y - z * half)%num in
  let y := (y + n1)%num in
  let y2 := horner z (dec (-19515295891) 14) [dec 833216087360 14; dec (-16666654611000) 14] in
  let y2 := (y2 * z * x)%num in
  let y2 := (y2 + x)%num in
  let y := if poly_mask then y2 else y in
  if sign then nopp y else y.

(** The function of one lane: approximations.rs:43-231 *)
Definition poly_lane (f : elementary) : A -> A :=
  match f with
  | Ln => ln_lane
  | Exp => exp_lane
  | Sin => sin_cos_lane true
  | _ => sin_cos_lane false
  end.
End lanes.

(** The methods with the registers of the SSE2 and AVX builds: real_ops.rs:302-373; elements which are not in a register use the function of the number type.
    [poly_lane] is only used with [Ln], [Exp], [Sin] and [Cos]. *)
Definition vapprox_simd {A} `{Num A} `{Flt A} `{Bits A} `{Math A} (f : approximation A) (r : reg_type) (addr : nat) (s : settings) (sched : list nat) (v : dvec A)
    : run (dvec A) :=
  if is_complex v then Done (mark_vector_as_invalid v)
  else
    let operation simd_op scalar_op := simd_real_operation r addr s sched simd_op scalar_op Small v in
    let lanes f := map (poly_lane f) in
    match f with
    | Ln_approx => operation (lanes Ln) (rmath Ln)
    | Exp_approx => operation (lanes Exp) (rmath Exp)
    | Sin_approx => operation (lanes Sin) (rmath Sin)
    | Cos_approx => operation (lanes Cos) (rmath Cos)
    | Log_approx base =>
        let b := rmath Ln base in operation (fun x => reg_bin ndiv (lanes Ln x) (splat r b)) (fun x => rmath Ln x / b)%num
    | Expf_approx base =>
        let x := rmath Ln base in operation (fun y => lanes Exp (reg_bin nmul (splat r x) y)) (fun y => rmath Exp (x * y)%num)
    | Powf_approx y => operation (fun x => lanes Exp (reg_bin nmul (lanes Ln x) (splat r y))) (fun x => rmath Exp (rmath Ln x * y)%num)
    end.
