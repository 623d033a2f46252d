(** Number instances for the examples. *)
From Verif Require Export Base.
From Coq Require Export ZArith QArith Qcanon.

(** Exact integers; used to run the model on concrete data. NaN has no counterpart, the division is truncated. *)
Global Instance Znum : Num Z := {|
  n0 := 0%Z; n1 := 1%Z; nadd := Z.add; nsub := Z.sub; nmul := Z.mul; ndiv := Z.quot; nopp := Z.opp; nltb := Z.ltb;
  nnan := (-999999999)%Z; nofnat := Z.of_nat |}.
