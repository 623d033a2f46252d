(** Model of vector/src/vector_types/real/real_ops.rs (without the approximations) and general/trigonometry_and_powers.rs. No proofs here. *)
From Verif Require Export Model_Complex.

(** The functions of real and of complex numbers which the operations below apply; a record without laws. [frem] is the [%] of floating point numbers: the
    remainder has the sign of the dividend. *)
(** Called in trigonometry_and_powers.rs:204-376 and real_ops.rs:243-288. *)
Class Rem (A : Type) := { frem : A -> A -> A; fabs : A -> A }.

Section real_ops.
Context {A : Type} `{Num A} `{Flt A}.

(** A mathematical function which exists for real and for complex numbers: trigonometry_and_powers.rs:204-298 (sin, cos, tan, asin, acos, atan, sinh, cosh,
    tanh, asinh, acosh, atanh: [Complexity::Medium], line 194) and 334-378 (root, powf, ln, exp, log, expf: [Complexity::Medium], line 195). All of them are this
    definition with the function of the same name of the number type in place of [rf] and [cf] ([root d] is [powf (1 / d)]; [expf b] of a real [x] is
    [b.powf(x)]). *)
Definition unary (rf : A -> A) (cf : A * A -> A * A) (co : complexity) (s : settings) (sched : list nat) (v : dvec A) : run (dvec A) :=
  if is_complex v then pure_complex_operation s sched cf co v else pure_real_operation s sched rf co v.

(** trigonometry_and_powers.rs:308-319 and 321-332 *)
Definition vsqrt (r : reg_type) (addr : nat) (s : settings) (sched : list nat) (v : dvec A) : run (dvec A) :=
  if is_complex v then pure_complex_operation s sched fcsqrt Small v
  else simd_real_operation r addr s sched (map fsqrt) fsqrt Small v.
(** trigonometry_and_powers.rs:321-332 *)
Definition vsquare (r : reg_type) (addr : nat) (s : settings) (sched : list nat) (v : dvec A) : run (dvec A) :=
  if is_complex v then pure_complex_operation s sched (fun x => cmul x x) Small v
  else simd_real_operation r addr s sched (fun x => reg_bin nmul x x) (fun x => x * x)%num Small v.

Context `{Rem A}.
(** real_ops.rs:243-251: registers compute the root of the square *)
Definition vabs (r : reg_type) (addr : nat) (s : settings) (sched : list nat) (v : dvec A) : run (dvec A) :=
  if is_complex v then Done (mark_vector_as_invalid v)
  else simd_real_operation r addr s sched (fun x => map fsqrt (reg_bin nmul x x)) fabs Small v.

(** real_ops.rs:261-264 *)
Definition wrap (s : settings) (sched : list nat) (divisor : A) (v : dvec A) : run (dvec A) :=
  if is_complex v then Done (mark_vector_as_invalid v)
  else pure_real_operation s sched (fun x => frem x divisor) Small v.

(** real_ops.rs:266-288: [i] is [j - 1] *)
Definition unwrap (divisor : A) (v : dvec A) : run (dvec A) :=
  if is_complex v then Done (mark_vector_as_invalid v)
  else
    let half := (divisor / nofnat 2)%num in
    l ← loop (len v - 1) 1 (fun j l =>
          x ← rd l j;
          y ← rd l (j - 1);
          let diff := (x - y)%num in
          if nltb half diff then wr l j (y + (frem diff divisor - divisor))%num
          else if nltb diff (nopp half) then wr l j (y + (frem diff divisor + divisor))%num
          else Done l) (elems v);
    Done (set_elems v l).
End real_ops.
