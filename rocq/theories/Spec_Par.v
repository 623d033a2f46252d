(** Specification vocabulary for the distribution of work. *)
From Verif Require Export Spec Model_Chunk.

(** The [pieces] put together are the array, and the [ranges] are the positions of the pieces in the array: range [i] starts where
    range [i - 1] ends (the first at 0), piece [i] is exactly what the array has in range [i], no piece is empty, and each starts at
    a multiple of the step size [w]. *)
Definition tiles {A} (array : list A) (w : nat) (pieces : list (list A)) (ranges : list (nat * nat)) : Prop :=
  concat pieces = array /\
  length ranges = length pieces /\
  (ranges <> [] -> exists e, ranges !! 0 = Some (0, e)) /\
  (forall i s e, ranges !! i = Some (s, e) ->
     s < e /\ e <= length array /\ pieces !! i = Some (take (e - s) (drop s array)) /\ s mod w = 0) /\
  (forall i s e s' e', ranges !! i = Some (s, e) -> ranges !! (i + 1) = Some (s', e') -> s' = e).

(** The function [F] (first argument: position of the piece in the whole array) does its work locally: on a concatenation,
    whose first part is a multiple of [w] long, it does what it does on the parts. Every [F] that treats blocks of [w] elements
    independently is like this. *)
Definition splittable {A} (w : nat) (F : nat -> list A -> run (list A)) : Prop :=
  forall off l1 l2, length l1 mod w = 0 ->
    F off (l1 ++ l2) = (r1 ← F off l1; r2 ← F (off + length l1) l2; Done (r1 ++ r2)).

From Verif Require Export Model_Simd.

(** Register types as they exist: an even number of lanes (at least two) of non empty elements. *)
Definition reg_ok (r : reg_type) : Prop := 0 < elem_size r /\ 0 < reg_len r /\ Nat.even (reg_len r) = true.

(** Every [&[T]] is aligned to its element. *)
Definition elem_aligned (r : reg_type) (addr : nat) : Prop := addr mod elem_size r = 0.
(** The storage starts at a multiple of half of a register (for example: a 16 byte aligned allocation and registers of at most 32 bytes). *)
Definition half_aligned (r : reg_type) (addr : nat) : Prop := (2 * addr) mod reg_bytes r = 0.
(** ... and at a multiple of a complex number. *)
Definition point_aligned (r : reg_type) (addr : nat) : Prop := addr mod (2 * elem_size r) = 0.

(** With these settings no threads are started for an empty slice. Every setting with non zero dual core thresholds and every setting with
    [core_limit <= 1] is like this. *)
Definition no_threads_for_nothing (c : complexity) (s : settings) : Prop := determine_number_of_chunks 0 c s <= 1.

From Verif Require Export Model_Elem.

(** The meta data of two operands agree: same number space, same domain, and the deltas differ by at most 10%. *)
Definition meta_agree {A} `{Num A} (v o : dvec A) : Prop :=
  is_complex v = is_complex o /\ vdomain v = vdomain o /\
  nltb (nofnat 11 / nofnat 10)%num (delta v / delta o)%num = false /\
  nltb (delta v / delta o)%num (nofnat 9 / nofnat 10)%num = false.

(** [l'] combines element [i] of [l] with element [i] modulo the length of the shorter list [o]. *)
Definition combined_cyclic {P Q R} (op : P -> Q -> R) (l : list P) (o : list Q) (l' : list R) : Prop :=
  length l' = length l /\
  forall i x y, l !! i = Some x -> o !! (i mod length o) = Some y -> l' !! i = Some (op x y).

(** As [wf], and a complex vector has storage for whole points only. *)
Definition whole_points {A} (v : dvec A) : Prop := is_complex v = true -> Nat.even (alloc_len v) = true.

(** The SIMD code is able to process [v] at this address: the vector is too short for registers, or the storage is aligned to half
    a register and, for complex vectors, to a complex number. *)
Definition address_ok {A} (r : reg_type) (addr : nat) (v : dvec A) : Prop :=
  (half_aligned r addr /\ (is_complex v = true -> point_aligned r addr)) \/
  len v < (addr mod reg_bytes r) / elem_size r + reg_len r.

(** Arithmetic of complex numbers, given by their real and imaginary parts. *)
Definition complex_sum {A} `{Num A} (x y : A * A) : A * A := (fst x + fst y, snd x + snd y)%num.
Definition complex_difference {A} `{Num A} (x y : A * A) : A * A := (fst x - fst y, snd x - snd y)%num.
Definition complex_product {A} `{Num A} (x y : A * A) : A * A := (fst x * fst y - snd x * snd y, fst x * snd y + snd x * fst y)%num.
(** x times the conjugate of y, divided by the squared norm of y *)
Definition complex_quotient {A} `{Num A} (x y : A * A) : A * A :=
  let n := (fst y * fst y + snd y * snd y)%num in
  ((fst x * fst y + snd x * snd y) / n, (snd x * fst y - fst x * snd y) / n)%num.

(** What a user expects from the binary operation [f] (add, sub, mul or div), where [rop] and [cop] are the operation on real and on complex
    numbers: different lengths or different meta data are reported and the vector is left as it was; otherwise point [i] of the result combines
    point [i] of both operands, and nothing else changes. The other operand is a read only argument. This holds for every register type,
    all multicore settings and every schedule. [needs_whole]: the operation fails on a complex vector with an odd storage. *)
Definition op_spec {A} `{Num A} (rop : A -> A -> A) (cop : A * A -> A * A -> A * A) (needs_whole : bool)
    (f : reg_type -> nat -> settings -> list nat -> dvec A -> dvec A -> run (dvec A * result unit)) : Prop :=
  forall r addr s sched (v o : dvec A), reg_ok r -> elem_aligned r addr ->
    (len v <> len o -> f r addr s sched v o = Done (v, Err InputMustHaveTheSameSize)) /\
    (len v = len o -> ~ meta_agree v o -> f r addr s sched v o = Done (v, Err InputMetaDataMustAgree)) /\
    (len v = len o -> meta_agree v o -> address_ok r addr v -> (if needs_whole then whole_points v else True) ->
      (forall l lo, reals v l -> reals o lo ->
         exists v', f r addr s sched v o = Done (v', Ok tt) /\ reals v' (zip_with rop l lo) /\ same_meta v v' /\ same_rest v v') /\
      (forall c co, cplx v c -> cplx o co ->
         exists v', f r addr s sched v o = Done (v', Ok tt) /\ cplx v' (zip_with cop c co) /\ same_meta v v' /\ same_rest v v')).

(** The same for the operations with a smaller operand, which is repeated: an empty operand makes the operation panic (a remainder by zero), a
    length which does not divide is rejected. *)
Definition smaller_spec {A} `{Num A} (rop : A -> A -> A) (cop : A * A -> A * A -> A * A)
    (f : reg_type -> settings -> list nat -> dvec A -> dvec A -> run (dvec A * result unit)) : Prop :=
  forall r s sched (v o : dvec A),
    (len o = 0 -> f r s sched v o = Panicked) /\
    (len o <> 0 -> len v mod len o <> 0 -> f r s sched v o = Done (v, Err InvalidArgumentLength)) /\
    (len o <> 0 -> len v mod len o = 0 -> ~ meta_agree v o -> f r s sched v o = Done (v, Err InputMetaDataMustAgree)) /\
    (len o <> 0 -> len v mod len o = 0 -> meta_agree v o ->
      (forall l lo, reals v l -> reals o lo ->
         exists v' l', f r s sched v o = Done (v', Ok tt) /\ reals v' l' /\ combined_cyclic rop l lo l' /\
           same_meta v v' /\ same_rest v v') /\
      (forall c co, cplx v c -> cplx o co ->
         exists v' c', f r s sched v o = Done (v', Ok tt) /\ cplx v' c' /\ combined_cyclic cop c co c' /\
           same_meta v v' /\ same_rest v v')).
