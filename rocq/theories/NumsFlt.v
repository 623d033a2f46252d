(** The further operations for the integers of the examples. *)
From Verif Require Export Nums Model_Float.
From Coq Require Export InitialRing.

(** Only used to run the model on concrete data: the infinities are numbers larger than all data, the norm is the integer square root,
    angles are not available. *)
Global Instance Zflt : Flt Z := {|
  finf := 1000000000%Z; fneginf := (-1000000000)%Z; fsqrt := Z.sqrt; fhypot := fun a b => Z.sqrt (a * a + b * b)%Z;
  fatan2 := fun a b => 0%Z; fcsqrt := fun c => c; fpolar := fun r phi => (r, 0%Z) |}.

(** The integers are a ring *)
Lemma Z_exact : ring_theory n0 n1 nadd nmul nsub nopp (@eq Z).
Proof. exact Zth. Qed.
