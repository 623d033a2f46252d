(** Model of the approximated functions of vector/src/vector_types/real/real_ops.rs:293-374 in the default build, in which the registers of
    simd_extensions/fallback.rs are used: their approximations (simd_extensions/approx_fallback.rs:13-46) apply the function of the number type to each
    lane. The polynomial approximations of simd_extensions/approximations.rs (features use_sse2, use_avx2) are not modelled. No proofs here. *)
From Verif Require Export Model_Math.

(** real_ops.rs:302-373 *)
Inductive approximation (A : Type) := Ln_approx | Exp_approx | Sin_approx | Cos_approx | Log_approx (base : A) | Expf_approx (base : A) | Powf_approx (exponent : A).
Arguments Ln_approx {A}. Arguments Exp_approx {A}. Arguments Sin_approx {A}. Arguments Cos_approx {A}. Arguments Log_approx {A}. Arguments Expf_approx {A}.
Arguments Powf_approx {A}.

Section approx.
Context {A : Type} `{Num A} `{Math A}.

(** approx_fallback.rs:17-31 ([iter_over_vector], fallback.rs) *)
Definition lanes (f : elementary) (x : list A) : list A := map (rmath f) x.

(** [assert_real!] (real_ops.rs:230-237) and [sel_reg!]; [APPROX_COMPLEXITY] is [Small] (293). The argument is a register with the same number in each lane
    (vector_types/mod.rs:283-296), [extract(0)] is that number. The logarithm of the base is computed once. *)
(** ln_approx 302-310, exp_approx 312-320, sin_approx 322-330, cos_approx 332-340, log_approx 342-350, expf_approx 352-362, powf_approx 364-373 *)
Definition vapprox (f : approximation A) (r : reg_type) (addr : nat) (s : settings) (sched : list nat) (v : dvec A) : run (dvec A) :=
  if is_complex v then Done (mark_vector_as_invalid v)
  else
    let operation simd_op scalar_op := simd_real_operation r addr s sched simd_op scalar_op Small v in
    match f with
    | Ln_approx => operation (lanes Ln) (rmath Ln)
    | Exp_approx => operation (lanes Exp) (rmath Exp)
    | Sin_approx => operation (lanes Sin) (rmath Sin)
    | Cos_approx => operation (lanes Cos) (rmath Cos)
    | Log_approx base =>
        let b := rmath Ln base in operation (fun x => reg_bin ndiv (lanes Ln x) (splat r b)) (fun x => rmath Ln x / b)%num
    | Expf_approx base =>
        let x := rmath Ln base in operation (fun y => lanes Exp (reg_bin nmul (splat r x) y)) (fun y => rmath Exp (x * y)%num)
    | Powf_approx y => operation (fun x => lanes Exp (reg_bin nmul (lanes Ln x) (splat r y))) (fun x => rmath Exp (rmath Ln x * y)%num)
    end.
End approx.
