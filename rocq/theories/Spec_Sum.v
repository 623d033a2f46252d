(** Specification vocabulary for sums and differences. *)
From Verif Require Export Spec Spec_Par Model_Sum.
From Coq Require Export Ring_theory.

(** [l'] has the n - 1 successive differences of [l] *)
Definition differences {P} (sub : P -> P -> P) (l l' : list P) : Prop :=
  length l' = length l - 1 /\
  forall i x y, l !! i = Some x -> l !! (i + 1) = Some y -> l' !! i = Some (sub y x).

(** [l'] is the first element of [l] followed by the differences *)
Definition differences_with_start {P} (sub : P -> P -> P) (l l' : list P) : Prop :=
  length l' = length l /\ l' !! 0 = l !! 0 /\
  forall i x y, l !! i = Some x -> l !! (i + 1) = Some y -> l' !! (i + 1) = Some (sub y x).

(** The sum of a list *)
Definition sum_of {P} (add : P -> P -> P) (zero : P) (l : list P) : P := foldr add zero l.

(** Element [i] of [l'] is the sum of the elements 0 to [i] of [l] *)
Definition prefix_sums {P} (add : P -> P -> P) (zero : P) (l l' : list P) : Prop :=
  length l' = length l /\ forall i, i < length l -> l' !! i = Some (sum_of add zero (take (i + 1) l)).

(** Exact arithmetic: the commutative ring laws of Coq's ring tactic *)
Definition exact_ring (A : Type) `{Num A} : Prop := ring_theory n0 n1 nadd nmul nsub nopp eq.
