(** The arithmetic of f64 as far as it is used by sums: every operation gives the exact result rounded to nearest even (Flocq's [FLT] format as in Model_F64.v).
    Simplifications: numbers are real numbers, so there is no overflow, no infinity, no NaN and one zero. No proofs here. *)
From Verif Require Export Model_F64 Model_Prec.

(** vector/src/lib.rs:186-209 (the implementations of the operators of f64 are those of the processor) *)
Definition f64_num : Num R := {|
  n0 := 0%R; n1 := 1%R;
  nadd := fun x y => f64_round (x + y); nsub := fun x y => f64_round (x - y); nmul := fun x y => f64_round (x * y); ndiv := fun x y => f64_round (x / y);
  nopp := Ropp; nltb := fun x y => if Rlt_dec x y then true else false; nnan := 0%R; nofnat := fun n => f64_round (INR n) |}.
(** vector/src/lib.rs:186-209; what sums do not use is left at zero *)
Definition f64_flt : Flt R := {|
  finf := 0%R; fneginf := 0%R; fsqrt := fun x => f64_round (R_sqrt.sqrt x); fhypot := fun x y => f64_round (R_sqrt.sqrt (x * x + y * y)); fatan2 := fun _ _ => 0%R;
  fcsqrt := fun _ => (0%R, 0%R); fpolar := fun _ _ => (0%R, 0%R) |}.
