(** Specification vocabulary for [wrap] and [unwrap] on exact real numbers. *)
From Verif Require Export NumsR Spec_Complex.
Local Open Scope R_scope.

(** Successive values differ by less than half of the divisor. *)
Definition small_steps (d : R) (x : list R) : Prop :=
  forall j a b, x !! j = Some a -> x !! (j + 1)%nat = Some b -> Rabs (b - a) < d / 2.

(** How many whole divisors a value lies away from zero. *)
Definition turns (d x : R) : Z := Rtrunc (x / d).

(** Whenever a value lies in another turn than the first value [x0], then the step to it leads further away from the first value. *)
Definition leads_away (d x0 : R) (x : list R) : Prop :=
  forall j a b, x !! j = Some a -> x !! (j + 1)%nat = Some b ->
    ((turns d x0 < turns d b)%Z -> a < b) /\ ((turns d b < turns d x0)%Z -> b < a).

Definition rising (x : list R) : Prop := forall j a b, x !! j = Some a -> x !! (j + 1)%nat = Some b -> a < b.
Definition falling (x : list R) : Prop := forall j a b, x !! j = Some a -> x !! (j + 1)%nat = Some b -> b < a.
