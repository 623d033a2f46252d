(** Specification vocabulary for windows and frequency responses. *)
From Verif Require Export Spec_Par Model_Window.

(** The number of threads which the settings ask for if a slice has [n] points and the work per point is moderate. *)
Definition threads (s : settings) (n : nat) : nat :=
  if core_limit s =? 1 then 1
  else if n <? med_dual_core_threshold s then 1
  else if n <? med_multi_core_threshold s then 2
  else core_limit s.

(** A window which has the same value at both ends, at a vector of [n] points *)
Definition mirrored {A} (w : nat -> nat -> A) (n : nat) : Prop := forall i, i < n -> w i n = w (n - 1 - i) n.
Definition even_function {A C} `{Num A} (f : A -> C) : Prop := forall x, f (nopp x) = f x.

(** The conditions under which the symmetric code works: at least two points and one thread, or any number of threads if the points can be
    dealt to twice as many pieces without a remainder. *)
Definition pairs_up (s : settings) (n : nat) : Prop :=
  (threads s n = 1 /\ 2 <= n) \/ (0 < threads s n /\ 0 < n /\ n mod (2 * threads s n) = 0).
(** A weaker condition: if [n] points are dealt to pieces of equal size (the last one may be shorter), there are as many pieces as are asked for. *)
Definition enough_pieces (s : settings) (n : nat) : Prop :=
  0 < threads s n /\ exists size, n <= 2 * threads s n * size /\ (2 * threads s n - 1) * size < n /\
    forall smaller, n <= 2 * threads s n * smaller -> size <= smaller.

(** Point [i] of [n] gets the factor [w i n]. *)
Definition windowed {A T} (scaled : T -> A -> T) (w : nat -> nat -> A) (l l' : list T) : Prop :=
  length l' = length l /\ forall i x, l !! i = Some x -> l' !! i = Some (scaled x (w i (length l))).

(** The factor that the code uses: a symmetric window is only evaluated in the first half. *)
Definition folded {A} (w : nat -> nat -> A) (i n : nat) : A := w (Nat.min i (n - 1 - i)) n.

(** What a user expects from applying a window, where [factor i n] is the factor of point [i] of [n] points *)
Definition applies_factors {A} `{Num A} (factor : nat -> nat -> A) (f : dvec A -> run (dvec A)) (v : dvec A) : Prop :=
  (forall l, reals v l -> exists v' l', f v = Done v' /\ reals v' l' /\ windowed nmul factor l l' /\ same_meta v v' /\ same_rest v v') /\
  (forall c, cplx v c -> exists v' c', f v = Done v' /\ cplx v' c' /\ windowed (fun x y => complex_product x (y, n0)) factor c c' /\
     same_meta v v' /\ same_rest v v').

From Verif Require Export NumsTrig.
Local Open Scope R_scope.

(** Where point [i] of [n] points lies on the frequency axis: the point in the middle is at zero, the first point at -1. *)
Definition axis (n i : nat) : R := (INR i - INR (n / 2)) / INR (n / 2).

(** Point [i] is multiplied by the ratio and the response at its place on the axis. *)
Definition responded {C T} (scaled : T -> C -> T) (h : R -> C) (ratio : R) (l l' : list T) : Prop :=
  length l' = length l /\ forall i x, l !! i = Some x -> l' !! i = Some (scaled x (h (axis (length l) i * ratio))).
