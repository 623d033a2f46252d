(** Model of the indexers of vector/src/vector_types/vec_impl_and_indexers.rs. No proofs here.

    A reference into the vector is what one can do with it: a shared one gives the elements, a mutable one replaces them by what [f] makes of them. The
    length of a slice can't be changed through a reference, so [f] is only used with functions which keep it. *)
From Verif Require Export Model_Vec.

(** The argument of an indexer: [..], [a..], [..b] and [a..b] (the [impl]s of vec_impl_and_indexers.rs:341-465) *)
Inductive range := Full | From (a : nat) | To (b : nat) | Between (a b : nat).

(** [&slice[range]]: the index expressions in vec_impl_and_indexers.rs:384, 416, 448, 542, 574, 606 *)
Definition index_range {P} (s : list P) (r : range) : run (list P) :=
  match r with
  | Full => Done s
  | From a => slice s a (length s)
  | To b => slice s 0 b
  | Between a b => slice s a b
  end.

(** Where the range starts in the slice (vec_impl_and_indexers.rs:384, 416, 448) *)
Definition range_start (r : range) : nat := match r with Full | To _ => 0 | From a | Between a _ => a end.

(** [f] applied through [&mut slice[range]]: vec_impl_and_indexers.rs:399, 431, 463 *)
Definition index_mut {P} (s : list P) (r : range) (f : list P -> list P) : run (list P) :=
  part ← index_range s r; splice s (range_start r) (f part).

Section indexers.
Context {A : Type}.

(** [data(i)]: vec_impl_and_indexers.rs:318-323 *)
Definition data_at (v : dvec A) (i : nat) : run A :=
  s ← slice (elems v) 0 (valid_len v); rd s i.

(** [*data_mut(i) = x]: vec_impl_and_indexers.rs:333-338 *)
Definition data_mut_at (v : dvec A) (i : nat) (x : A) : run (dvec A) :=
  s ← slice (elems v) 0 (valid_len v);
  s' ← wr s i x;
  e ← splice (elems v) 0 s';
  Done (set_elems v e).

(** [data(range)]: vec_impl_and_indexers.rs:350-354, 380-385, 412-417, 444-449 *)
Definition data_range (v : dvec A) (r : range) : run (list A) :=
  s ← slice (elems v) 0 (valid_len v); index_range s r.

(** [data_mut(range)]: vec_impl_and_indexers.rs:364-368, 395-400, 427-432, 459-464 *)
Definition data_mut_range (v : dvec A) (r : range) (f : list A -> list A) : run (dvec A) :=
  s ← slice (elems v) 0 (valid_len v);
  s' ← index_mut s r f;
  e ← splice (elems v) 0 s';
  Done (set_elems v e).

(** [datac(i)]: vec_impl_and_indexers.rs:476-481 *)
Definition datac_at (v : dvec A) (i : nat) : run (A * A) :=
  s ← slice (elems v) 0 (valid_len v);
  c ← array_to_complex s;
  rd c i.

(** [*datac_mut(i) = x]: vec_impl_and_indexers.rs:491-496 *)
Definition datac_mut_at (v : dvec A) (i : nat) (x : A * A) : run (dvec A) :=
  s ← slice (elems v) 0 (valid_len v);
  c ← array_to_complex s;
  c' ← wr c i x;
  e ← splice (elems v) 0 (complex_to_array c');
  Done (set_elems v e).

(** [datac(range)]: vec_impl_and_indexers.rs:508-512, 538-543, 570-575, 602-607 *)
Definition datac_range (v : dvec A) (r : range) : run (list (A * A)) :=
  s ← slice (elems v) 0 (valid_len v);
  c ← array_to_complex s;
  index_range c r.

(** [datac_mut(range)]: vec_impl_and_indexers.rs:522-526, 553-558, 585-590, 617-622 *)
Definition datac_mut_range (v : dvec A) (r : range) (f : list (A * A) -> list (A * A)) : run (dvec A) :=
  s ← slice (elems v) 0 (valid_len v);
  c ← array_to_complex s;
  c' ← index_mut c r f;
  e ← splice (elems v) 0 (complex_to_array c');
  Done (set_elems v e).

(** [v[i]] of the types whose number space is fixed: vec_impl_and_indexers.rs:625-636 (real), 745-756 (complex). Vectors which keep the number space at run
    time don't have the operator. *)
Definition operator_at (v : dvec A) (i : nat) : run (A + A * A) :=
  match number_space v with
  | NReal => x ← data_at v i; Done (inl x)
  | NComplex => x ← datac_at v i; Done (inr x)
  | NDyn _ => Panicked
  end.

(** [v[range]]: vec_impl_and_indexers.rs:649-660, 673-684, 697-708, 721-732 (real), 769-780, 793-804, 817-828, 841-852 (complex) *)
Definition operator_range (v : dvec A) (r : range) : run (list A + list (A * A)) :=
  match number_space v with
  | NReal => s ← data_range v r; Done (inl s)
  | NComplex => s ← datac_range v r; Done (inr s)
  | NDyn _ => Panicked
  end.
End indexers.
