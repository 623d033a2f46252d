(** Small specification vocabulary. It only refers to what a user of the API can observe. *)
From Verif Require Export Model_Vec Model_Reorg.

(** The vector is a real vector whose valid data ([v.data(..)]) is the list [l]. *)
Definition reals {A} (v : dvec A) (l : list A) : Prop :=
  is_complex v = false /\ vdata v = Done l.

(** The vector is a complex vector whose points are the list [c] of (re, im) pairs, stored interleaved. *)
Definition cplx {A} (v : dvec A) (c : list (A * A)) : Prop :=
  is_complex v = true /\ vdata v = Done (complex_to_array c).

(** Delta, domain and number space are the same. *)
Definition same_meta {A} (v v' : dvec A) : Prop :=
  delta v' = delta v /\ domain v' = domain v /\ number_space v' = number_space v.

(** The storage still has the same size and kind, and what lies behind the valid part is untouched. *)
Definition same_rest {A} (v v' : dvec A) : Prop :=
  s_kind (data v') = s_kind (data v) /\ s_cap (data v') = s_cap (data v) /\
  valid_len v' = valid_len v /\ drop (valid_len v) (elems v') = drop (valid_len v) (elems v).

(** The well-formedness which C01 is about: the valid part lies inside of the storage, and a complex vector
    has an even length. *)
Definition wf {A} (v : dvec A) : Prop :=
  len v <= alloc_len v /\ (is_complex v = true -> Nat.even (len v) = true).

(** A storage as the safe Rust type can have it: initialised elements are within the capacity, and only [Vec] and
    [ArrayVec] have spare capacity. *)
Definition wf_storage {A} (s : storage A) : Prop :=
  s_len s <= s_cap s /\ (s_kind s <> KVec -> s_kind s <> KArrayVec -> s_cap s = s_len s).

(** Can the storage hold [n] elements at all? *)
Definition can_hold {A} (s : storage A) (n : nat) : Prop :=
  match s_kind s with
  | KVec => True
  | KArrayVec => n <= s_cap s
  | _ => n <= s_len s
  end.

(** The element which a list has at position [i] modulo its length (only used for non empty lists). *)
Definition cyc {A} (l : list A) (i : nat) : option A := l !! (i mod length l).

(** [l'] is [l] with element [i] moved to position [(i + k) mod n]. *)
Definition rotated_by {A} (k : nat) (l l' : list A) : Prop :=
  length l' = length l /\ forall i, i < length l -> l' !! ((i + k) mod length l) = l !! i.

Definition zeros {A} (zero : A) (n : nat) : list A := replicate n zero.

(** The points [p] padded with zeros to [n] points. [End]: zeros behind. [Surround]: [left] zeros in front, the others
    behind. [Center]: the zeros go between the first half (the larger one if the number of points is odd) and
    the second half. *)
Definition padded {A} (zero : A) (o : padding) (left n : nat) (p : list A) : list A :=
  let diff := n - length p in
  let first := length p - length p / 2 in
  match o with
  | End => p ++ zeros zero diff
  | Surround => zeros zero left ++ p ++ zeros zero (diff - left)
  | Center => take first p ++ zeros zero diff ++ drop first p
  end.

(** Every point followed by [f - 1] zeros. *)
Definition interleaved {A} (zero : A) (f : nat) (p : list A) : list A :=
  p ≫= (fun x => x :: zeros zero (f - 1)).

(** The buffer is able to serve a result of [n] elements for the vector: a [FixedLenBuffer] neither grows nor
    replaces the storage of the vector. *)
Definition lends {A} (b : buffer A) (v : dvec A) (n : nat) : Prop :=
  match b with
  | FixedLenBuffer store => n <= length store /\ n <= alloc_len v
  | _ => True
  end.

(** [parts] are the points [p] dealt out to [length parts] lists: part [j] has the points [j], [j + k], [j + 2k], ... of [p]. *)
Definition dealt {A} (p : list A) (parts : list (list A)) : Prop :=
  let k := length parts in
  forall j part, parts !! j = Some part ->
    length part * k = length p /\ forall i, i < length part -> part !! i = p !! (i * k + j).

(** Number space and domain which a constructor promises with its name or its arguments. *)
Definition declared_meta (c : ctor) : nspace * dmarker :=
  match c with
  | ToRealTime | FromRealTime => (NReal, DTime)
  | ToRealFreq | FromRealFreq => (NReal, DFreq)
  | ToComplexTime | FromComplexTime => (NComplex, DTime)
  | ToComplexFreq | FromComplexFreq => (NComplex, DFreq)
  | ToGen c d => (NDyn c, DDyn d)
  | ToDspVec n d => (n, d)
  end.
