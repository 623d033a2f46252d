(** Rounding errors, independently of the code *)
From Verif Require Export Spec_Stats Model_Prec.
From Coq Require Export Reals Lra.

Local Open Scope R_scope.

Definition Rsum (l : list R) : R := foldr Rplus 0 l.

(** Machine numbers: [val] is the real number behind one, [usual] says which ones are finite numbers of the format. Sums and differences of finite numbers
    are finite again (no overflow) and have a relative error of at most [u]. For f64 [u] is 2^-53. *)
Record rounds {A} `{Num A} (val : A -> R) (usual : A -> Prop) (u : R) : Prop := {
  r_zero : usual n0 /\ val n0 = 0;
  r_add : forall x y, usual x -> usual y -> usual (x + y)%num /\ Rabs (val (x + y)%num - (val x + val y)) <= u * Rabs (val x + val y);
  r_sub : forall x y, usual x -> usual y -> usual (x - y)%num /\ Rabs (val (x - y)%num - (val x - val y)) <= u * Rabs (val x - val y);
}.

(** [s] is the sum of the numbers [l], up to [k] times the rounding unit, relative to the sum of the magnitudes *)
Definition within (u k : R) (l : list R) (s : R) : Prop := Rabs (s - Rsum l) <= k * u * Rsum (map Rabs l).
(** Not more than 1/(64 u) numbers: 2^47 for f64 *)
Definition not_too_many {Q} (u : R) (l : list Q) : Prop := 0 <= u <= / 1024 /\ INR (length l) * u <= / 64.
