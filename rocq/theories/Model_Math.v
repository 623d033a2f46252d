(** Model of the methods of vector/src/vector_types/general/trigonometry_and_powers.rs which apply a function of the number type to each point. No proofs
    here. *)
From Verif Require Export Model_Real.

(** The functions without a parameter *)
(** vector trigonometry_and_powers.rs:204-298, 346-360 *)
Inductive elementary := Sin | Cos | Tan | Asin | Acos | Atan | Sinh | Cosh | Tanh | Asinh | Acosh | Atanh | Ln | Exp.
(** The functions of the number type (num_traits::Float) and of its complex numbers (num_complex::Complex). A record without laws. *)
(** Called in trigonometry_and_powers.rs:204-376. *)
Class Math (A : Type) := {
  rmath : elementary -> A -> A;
  cmath : elementary -> A * A -> A * A;
  rpowf : A -> A -> A;                  (* base, exponent *)
  cpowf : A * A -> A -> A * A;          (* base, exponent *)
  rlog : A -> A -> A;                   (* argument, base *)
  clog : A * A -> A -> A * A;           (* argument, base *)
  cexpf : A * A -> A -> A * A;          (* exponent, base *)
}.

Section math.
Context {A : Type} `{Num A} `{Math A}.

(** sin 204-210, cos 212-218, tan 220-226, asin 228-234, acos 236-242, atan 244-250, sinh 252-258, cosh 260-266, tanh 268-274, asinh 276-282, acosh 284-290,
    atanh 292-298, ln 346-352, exp 354-360; the complexities are in the lines 194 and 195. *)
Definition vmath (f : elementary) (s : settings) (sched : list nat) (v : dvec A) : run (dvec A) := unary (rmath f) (cmath f) Medium s sched v.
(** trigonometry_and_powers.rs:338-344 *)
Definition vpowf (exponent : A) (s : settings) (sched : list nat) (v : dvec A) : run (dvec A) :=
  unary (fun x => rpowf x exponent) (fun x => cpowf x exponent) Medium s sched v.
(** trigonometry_and_powers.rs:334-336 *)
Definition vroot (degree : A) (s : settings) (sched : list nat) (v : dvec A) : run (dvec A) := vpowf (n1 / degree)%num s sched v.
(** trigonometry_and_powers.rs:362-368 *)
Definition vlog (base : A) (s : settings) (sched : list nat) (v : dvec A) : run (dvec A) :=
  unary (fun x => rlog x base) (fun x => clog x base) Medium s sched v.
(** trigonometry_and_powers.rs:370-376 *)
Definition vexpf (base : A) (s : settings) (sched : list nat) (v : dvec A) : run (dvec A) :=
  unary (fun x => rpowf base x) (fun x => cexpf x base) Medium s sched v.
End math.
