(** Specification vocabulary for the indexers (C63). *)
From Verif Require Export Spec Model_Index.

(** The positions [a <= i < b] which a range stands for in a list of [n] elements *)
Definition bounds (r : range) (n : nat) : nat * nat :=
  match r with Full => (0, n) | From a => (a, n) | To b => (0, b) | Between a b => (a, b) end.

(** The range lies inside of a list of [n] elements. *)
Definition inside (r : range) (n : nat) : Prop := fst (bounds r n) <= snd (bounds r n) <= n.

(** [s] is what [l] has in the range. *)
Definition part {P} (r : range) (l s : list P) : Prop :=
  length s = snd (bounds r (length l)) - fst (bounds r (length l)) /\
  forall j, j < length s -> s !! j = l !! (fst (bounds r (length l)) + j).

(** [l'] is [l] with [f] applied to the range; everything else is as before. *)
Definition changed_in {P} (r : range) (f : list P -> list P) (l l' : list P) : Prop :=
  length l' = length l /\
  (forall i, i < fst (bounds r (length l)) \/ snd (bounds r (length l)) <= i -> l' !! i = l !! i) /\
  forall s, part r l s -> part r l' (f s).

(** [f] changes elements, but not their number. *)
Definition keeps_length {P} (f : list P -> list P) : Prop := forall l, length (f l) = length l.
