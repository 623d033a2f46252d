(** Specification vocabulary for decimation, interpolation and lookup tables. *)
From Verif Require Export Spec Model_Interp NumsTrig.
Local Open Scope R_scope.

(** [y] has the points [d], [d + k], [d + 2 k], ... of [x], as far as they exist, and no more. *)
Definition every {P} (k d : nat) (x y : list P) : Prop := forall i, y !! i = x !! (d + i * k)%nat.

(** Rounding of the real numbers *)
Definition Rfloor (x : R) : R := IZR (Int_part x).
Definition Rround (x : R) : R := if Rlt_dec x 0 then - Rfloor (- x + / 2) else Rfloor (x + / 2).
Global Instance Rrounding : Rounding R := {|
  ffloor := Rfloor;
  fceil := fun x => - Rfloor (- x);
  fround := Rround;
  to_usize := fun x => if Rlt_dec (-1) x then Some (Z.to_nat (Rtrunc x)) else None;
  to_isize := fun x => Some (Rtrunc x);
  as_usize := fun x => Z.to_nat (Rtrunc x) |}.

(** The straight line through the samples [b] and [b + 1] of [x], at the position [t] *)
Definition on_line (x : list R) (b : nat) (t : R) : R :=
  let y0 := default 0 (x !! b) in
  let y1 := default 0 (x !! (b + 1)%nat) in
  y0 + (y1 - y0) * (t - INR b).
(** The cubic Catmull-Rom polynomial through [y1] and [y2] with the slopes [(y2 - y0) / 2] and [(y3 - y1) / 2], at [t] in [0, 1] *)
Definition catmull_rom (y0 y1 y2 y3 t : R) : R :=
  let m1 := (y2 - y0) / 2 in
  let m2 := (y3 - y1) / 2 in
  (2 * t ^ 3 - 3 * t ^ 2 + 1) * y1 + (t ^ 3 - 2 * t ^ 2 + t) * m1 + (- 2 * t ^ 3 + 3 * t ^ 2) * y2 + (t ^ 3 - t ^ 2) * m2.
(** Sample [z] of [x], continued at both ends by a straight line *)
Definition extended (x : list R) (z : Z) : R :=
  let n := Z.of_nat (length x) in
  let at_ k := default 0 (x !! Z.to_nat k) in
  if (z <? 0)%Z then at_ 0%Z - (at_ 1%Z - at_ 0%Z) * IZR (- z)
  else if (z <? n)%Z then at_ z
  else at_ (n - 1)%Z + (at_ (n - 1)%Z - at_ (n - 2)%Z) * IZR (z - (n - 1)).

(** ** Lookup tables *)
(** Where the argument [x] lies in the table, in steps: the point in the middle of the table stands for 0 *)
Definition place {P} (t : lut R P) (x : R) : R := x / lut_delta t + INR (length (lut_table t) / 2).
(** The straight line between two values, [s] from 0 to 1 *)
Definition lerp (y0 y1 s : R) : R := (1 - s) * y0 + s * y1.
Definition clerp (y0 y1 : R * R) (s : R) : R * R := (lerp (fst y0) (fst y1) s, lerp (snd y0) (snd y1) s).
(** The code takes an argument which is closer than this to a point of the table for that point *)
Definition tolerance : R := / 1000000.
(** The value of a table between its points [k] and [k + 1] *)
Definition between_points {P} (line : P -> P -> R -> P) (y0 y1 : P) (s : R) (y : P) : Prop :=
  (s < tolerance -> y = y0) /\ (1 - tolerance < s -> y = y1) /\ (tolerance <= s <= 1 - tolerance -> y = line y0 y1 s).
