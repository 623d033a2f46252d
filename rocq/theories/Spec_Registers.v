(** Specification vocabulary for SIMD registers: a register holds [reg_len] real numbers or half as many complex numbers, one after the other, and
    every operation works on these numbers independently. *)
From Verif Require Export Spec_Par Spec_Complex Model_Registers.

Section spec.
Context {A : Type} `{Num A} `{Flt A}.

(** The complex numbers [c] as lanes *)
Definition as_lanes (c : list (A * A)) : list A := complex_to_array c.

(** All arithmetic of the backend [k] is the arithmetic of the real or complex numbers in the register. *)
Definition arithmetic_ok (k : backend A) : Prop :=
  let n := reg_len (bk_reg k) in
  (forall z, bk_from_complex k z = as_lanes (replicate (n / 2) z)) /\
  (forall l x, length l = n -> bk_add_real k l x = map (fun y => y + x)%num l /\ bk_scale_real k l x = map (fun y => y * x)%num l /\
     bk_sqrt k l = map fsqrt l) /\
  (forall c z, 2 * length c = n ->
     bk_add_complex k (as_lanes c) z = as_lanes (map (fun y => complex_sum y z) c) /\
     bk_scale_complex k (as_lanes c) z = as_lanes (map (fun y => complex_product y z) c) /\
     bk_swap_iq k (as_lanes c) = as_lanes (map (fun y => (snd y, fst y)) c)) /\
  (forall c d, 2 * length c = n -> 2 * length d = n ->
     bk_mul_complex k (as_lanes c) (as_lanes d) = as_lanes (zip_with complex_product c d) /\
     bk_div_complex k (as_lanes c) (as_lanes d) = as_lanes (zip_with complex_quotient c d)).

(** Sums over a register: from the first to the last number *)
Definition sums_ok (k : backend A) : Prop :=
  let n := reg_len (bk_reg k) in
  (forall x l, length (x :: l) = n -> bk_sum_real k (x :: l) = foldl nadd x l) /\
  (forall z c, 2 * length (z :: c) = n -> bk_sum_complex k (as_lanes (z :: c)) = foldl complex_sum z c).

(** What is stored after [complex_abs] and [complex_abs_squared]: the norm of every number, in order *)
Definition norms_ok (k : backend A) : Prop :=
  forall c, 2 * length c = reg_len (bk_reg k) ->
    bk_stored k (bk_complex_abs_squared k (as_lanes c)) = map (fun z => fst z * fst z + snd z * snd z)%num c /\
    bk_stored k (bk_complex_abs k (as_lanes c)) = map (fun z => fsqrt (fst z * fst z + snd z * snd z)%num) c.

(** Every first of two values replaces the second one: what the f64x4 registers of avx.rs store instead. *)
Fixpoint first_of_two {B} (l : list B) : list B :=
  match l with
  | x :: _ :: l' => x :: x :: first_of_two l'
  | _ => l
  end.
(** [l'] are the values [l] computed with registers of two numbers at the address [addr]: the part before the first aligned register (a number of 16
    bytes) and a rest shorter than a register are right (everything if there is no whole register), in between the first of two values replaces the second one. *)
Definition doubled_from {B} (addr : nat) (l l' : list B) : Prop :=
  exists before between after, l = before ++ between ++ after /\ l' = before ++ first_of_two between ++ after /\
    Nat.even (length between) = true /\
    (if 2 * length l <? (addr mod 32) / 8 + 4 then between = [] else length before = (addr mod 32) / 16 /\ length after < 2).
End spec.
