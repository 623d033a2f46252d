(** The remaining operations of the number types. No proofs here. *)
From Verif Require Export Model_Elem.

(** Further functions of [RealNumber] (num_traits::Float, vector/src/lib.rs:124-137, 208) and of num_complex which the library calls. As [Num], a record without laws. *)
Class Flt (A : Type) := {
  finf : A;                      (* infinity() *)
  fneginf : A;                   (* neg_infinity() *)
  fsqrt : A -> A;
  fhypot : A -> A -> A;          (* norm of a complex number *)
  fatan2 : A -> A -> A;          (* arg of a complex number (im, re) *)
  fcsqrt : A * A -> A * A;       (* sqrt of a complex number *)
  fpolar : A -> A -> A * A;      (* Complex::from_polar *)
}.
