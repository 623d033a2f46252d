(** Numbers without rounding which have an exponent and a fraction, and what an approximation is worth (C64) *)
From Verif Require Export Model_Poly Spec Spec_Par Spec_Complex NumsR.
Local Open Scope R_scope.

(** The exponent of a positive number: [2 ^ e <= x < 2 ^ (e + 1)] *)
Definition exponent (x : R) : Z := Int_part (ln x / ln 2).

(** The real numbers with the exponent range of a floating point type: [b] is 127 for f32 and 1023 for f64. An exponent which is out of range gives an
    arbitrary number (as an infinity and a subnormal number have no place here), and no theorem uses it. *)
Definition Rbits (b : Z) : Bits R := {|
  lit m d := IZR m / IZR (Zpos d);
  exponent_bits x := (exponent x + b)%Z;
  half_mantissa x := x / powerRZ 2 (exponent x + 1);
  from_exponent e := if ((0 <? e) && (e <? 2 * b + 1))%Z then powerRZ 2 (e - b) else 0;
  bias := b;
  min_norm := powerRZ 2 (1 - b);
  trunc := Rtrunc;
  of_int := IZR;
  negative x := Rltb x 0
|}.

(** The positive numbers of the type, without the subnormal ones *)
Definition normalised (b : Z) (x : R) : Prop := powerRZ 2 (1 - b) <= x < powerRZ 2 (b + 1).

(** The absolute and the relative error of [y] *)
Definition off_by (eps exact y : R) : Prop := Rabs (y - exact) <= eps.
Definition off_by_rel (eps exact y : R) : Prop := Rabs (y - exact) <= eps * Rabs exact.

(** The mathematical functions of the number type are the mathematical functions. *)
Definition exact_math (M : Math R) : Prop :=
  (forall x, rmath Ln x = ln x) /\ (forall x, rmath Exp x = exp x) /\ (forall x, rmath Sin x = sin x) /\ (forall x, rmath Cos x = cos x).

(** All numbers, each with the one which replaced it, are in the relation *)
Definition all_pairs (P : R -> R -> Prop) (l l' : list R) : Prop := length l' = length l /\ forall i x y, l !! i = Some x -> l' !! i = Some y -> P x y.
