(** * C63: indexing *)
From Verif Require Import Proof_Base Proof_Index Spec_Index Nums.
Local Open Scope nat_scope.

(** [data(i)] and [v[i]] of a real vector give element [i] of the valid data and panic behind it, also if the storage has more elements. *)
Theorem C63_data_at {A} (v : dvec A) (l : list A) (i : nat) :
  vdata v = Done l ->
  (forall x, data_at v i = Done x <-> l !! i = Some x) /\ (data_at v i = Panicked <-> len v <= i).
Proof. exact (data_at_spec v l i). Qed.
Print Assumptions C63_data_at.

(** [data(..)], [data(a..)], [data(..b)] and [data(a..b)] give exactly the elements of the range, and panic exactly for ranges which leave the valid data. *)
Theorem C63_data_range {A} (v : dvec A) (l : list A) (r : range) :
  vdata v = Done l ->
  (forall s, data_range v r = Done s <-> inside r (len v) /\ part r l s) /\ (data_range v r = Panicked <-> ~ inside r (len v)).
Proof. exact (data_range_spec v l r). Qed.
Print Assumptions C63_data_range.

(** A write through [data_mut(i)] changes this element and nothing else. *)
Theorem C63_data_mut_at {A} (v : dvec A) (l : list A) (i : nat) (x : A) :
  vdata v = Done l ->
  (i < len v -> exists v', data_mut_at v i x = Done v' /\ vdata v' = Done (<[i := x]> l) /\ same_meta v v' /\ same_rest v v') /\
  (len v <= i -> data_mut_at v i x = Panicked).
Proof. exact (data_mut_at_spec v l i x). Qed.
Print Assumptions C63_data_mut_at.

(** A write through [data_mut(range)] changes the elements of the range and nothing else. *)
Theorem C63_data_mut_range {A} (v : dvec A) (l : list A) (r : range) (f : list A -> list A) :
  vdata v = Done l -> keeps_length f ->
  (inside r (len v) -> exists v' l', data_mut_range v r f = Done v' /\ vdata v' = Done l' /\ changed_in r f l l' /\ same_meta v v' /\ same_rest v v') /\
  (~ inside r (len v) -> data_mut_range v r f = Panicked).
Proof. exact (data_mut_range_spec v l r f). Qed.
Print Assumptions C63_data_mut_range.

(** The description determines the result. *)
Theorem C63_changed_unique {P} (r : range) (f : list P -> list P) (l l1 l2 : list P) :
  inside r (length l) -> keeps_length f -> changed_in r f l l1 -> changed_in r f l l2 -> l1 = l2.
Proof. exact (changed_in_unique r f l l1 l2). Qed.
Print Assumptions C63_changed_unique.

(** The same for the complex indexers: they count in points. *)
Theorem C63_datac_at {A} (v : dvec A) (c : list (A * A)) (i : nat) :
  cplx v c ->
  (forall x, datac_at v i = Done x <-> c !! i = Some x) /\ (datac_at v i = Panicked <-> points v <= i).
Proof. exact (datac_at_spec v c i). Qed.
Print Assumptions C63_datac_at.

Theorem C63_datac_range {A} (v : dvec A) (c : list (A * A)) (r : range) :
  cplx v c ->
  (forall s, datac_range v r = Done s <-> inside r (points v) /\ part r c s) /\ (datac_range v r = Panicked <-> ~ inside r (points v)).
Proof. exact (datac_range_spec v c r). Qed.
Print Assumptions C63_datac_range.

Theorem C63_datac_mut_at {A} (v : dvec A) (c : list (A * A)) (i : nat) (x : A * A) :
  cplx v c ->
  (i < points v -> exists v', datac_mut_at v i x = Done v' /\ cplx v' (<[i := x]> c) /\ same_meta v v' /\ same_rest v v') /\
  (points v <= i -> datac_mut_at v i x = Panicked).
Proof. exact (datac_mut_at_spec v c i x). Qed.
Print Assumptions C63_datac_mut_at.

Theorem C63_datac_mut_range {A} (v : dvec A) (c : list (A * A)) (r : range) (f : list (A * A) -> list (A * A)) :
  cplx v c -> keeps_length f ->
  (inside r (points v) -> exists v' c', datac_mut_range v r f = Done v' /\ cplx v' c' /\ changed_in r f c c' /\ same_meta v v' /\ same_rest v v') /\
  (~ inside r (points v) -> datac_mut_range v r f = Panicked).
Proof. exact (datac_mut_range_spec v c r f). Qed.
Print Assumptions C63_datac_mut_range.

(** The index operator of the types with a fixed number space: numbers for real vectors, points for complex vectors. *)
Theorem C63_operator {A} (v : dvec A) (i : nat) (r : range) :
  (forall l, number_space v = NReal -> vdata v = Done l ->
    (forall y, operator_at v i = Done y <-> exists x, l !! i = Some x /\ y = inl x) /\
    (forall y, operator_range v r = Done y <-> exists s, inside r (len v) /\ part r l s /\ y = inl s)) /\
  (forall c, number_space v = NComplex -> vdata v = Done (complex_to_array c) ->
    (forall y, operator_at v i = Done y <-> exists x, c !! i = Some x /\ y = inr x) /\
    (forall y, operator_range v r = Done y <-> exists s, inside r (points v) /\ part r c s /\ y = inr s)).
Proof. exact (operator_spec v i r). Qed.
Print Assumptions C63_operator.

(** The documentation says that the complex indexers give an empty slice if the vector is not complex. For a real vector (its number space is known at
    run time only) with an even length they give all its numbers as pairs, and for an odd length they panic. *)
Theorem C63_datac_of_real_refuted {A} (v : dvec A) (l : list A) :
  reals v l ->
  (Nat.even (len v) = true -> exists c, datac_range v Full = Done c /\ complex_to_array c = l) /\
  (Nat.even (len v) = false -> datac_range v Full = Panicked).
Proof. exact (datac_of_real v l). Qed.
Print Assumptions C63_datac_of_real_refuted.

(** A vector of five elements in a storage of seven, and a complex vector of two points in a storage of six elements *)
Example C63_example :
  let v := DVec (Storage KVec 7 [1; 2; 3; 4; 5; 6; 7]%Z) 1%Z DTime NReal 5 in
  let w := DVec (Storage KVec 6 [1; 2; 3; 4; 5; 6]%Z) 1%Z DTime NComplex 4 in
  let g := DVec (Storage KVec 4 [1; 2; 3; 4]%Z) 1%Z (DDyn Time) (NDyn false) 4 in
  vdata v = Done [1; 2; 3; 4; 5]%Z /\ data_at v 4 = Done 5%Z /\ data_at v 5 = Panicked /\
  data_range v (From 3) = Done [4; 5]%Z /\ data_range v (Between 1 3) = Done [2; 3]%Z /\ data_range v (To 6) = Panicked /\
  data_range v (Between 3 2) = Panicked /\ data_range v (From 5) = Done [] /\ data_range v (From 6) = Panicked /\
  data_mut_range v (Between 1 3) (map (fun x => x * 10)%Z) = Done (set_elems v [1; 20; 30; 4; 5; 6; 7]%Z) /\
  datac_at w 1 = Done (3, 4)%Z /\ datac_at w 2 = Panicked /\ datac_mut_at w 1 (9, 8)%Z = Done (set_elems w [1; 2; 9; 8; 5; 6]%Z) /\
  operator_at v 2 = Done (inl 3%Z) /\ operator_range w (From 1) = Done (inr [(3, 4)%Z]) /\
  datac_range g Full = Done [(1, 2); (3, 4)]%Z.
Proof. split_and!; reflexivity. Qed.
