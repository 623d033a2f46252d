(** Model of vectors, storages, buffers, constructors and rededication. No proofs here. *)
From Verif Require Export Base.

(** ** Storages *)

(** The storage types which implement [ToSlice]: vector/src/vector_types/support_core.rs:139-260 ([&[T]], [&mut [T]], [ArrayVec])
    and vector/src/vector_types/support_std.rs:207-281 ([Vec], [Box<[T]>]). [InlineVector] is private to the crate and not
    modelled. *)
Inductive skind := KVec | KBox | KSlice | KSliceMut | KArrayVec.

(** A storage: its initialised elements and its capacity. For [Vec] and [ArrayVec] the capacity may exceed the number of
    elements; for the others both agree ([wf_storage] below). *)
(** requirements.rs:6-39 *)
Record storage (A : Type) := Storage { s_kind : skind; s_cap : nat; s_elems : list A }.
Arguments Storage {_} _ _ _.
Arguments s_kind {_} _.
Arguments s_cap {_} _.
Arguments s_elems {_} _.

(** [ToSlice::len], the number of elements in the storage. *)
(** requirements.rs:11 *)
Definition s_len {A} (s : storage A) : nat := length (s_elems s).

(** [ToSlice::alloc_len]: support_core.rs:151, 177, 209, 244 and support_std.rs:223, 264 *)
Definition s_alloc_len {A} (s : storage A) : nat :=
  match s_kind s with
  | KVec | KArrayVec => s_cap s
  | KBox | KSlice | KSliceMut => s_len s
  end.

(** Elements of a [Vec] after [resize(len, zero)] *)
(** support_std.rs:246-248 *)
Definition resized {A} (zero : A) (l : list A) (len : nat) : list A :=
  take len l ++ replicate (len - length l) zero.

(** [ToSlice::try_resize]: support_core.rs:155 ([&[T]]), 213 ([&mut [T]]), 248 ([ArrayVec]); support_std.rs:227 ([Vec]),
    268 ([Box]).  A [Vec] that grows beyond its capacity reallocates; the new capacity is taken as exactly the length, the
    allocator may give more (not observable through the API of the vector, whose [alloc_len()] is the storage's [len()]). *)
Definition try_resize {A} (zero : A) (s : storage A) (len : nat) : storage A * result unit :=
  match s_kind s with
  | KVec => (Storage KVec (Nat.max (s_cap s) len) (resized zero (s_elems s) len), Ok tt)
  | KArrayVec =>
      if s_cap s <? len then (s, Err TypeCanNotResize)
      else (Storage KArrayVec (s_cap s) (resized zero (s_elems s) len), Ok tt)
  | KBox | KSlice | KSliceMut =>
      if s_len s <? len then (s, Err TypeCanNotResize) else (s, Ok tt)
  end.

(** ** Meta data *)

(** vector/src/meta.rs:5-46: the number space is fixed by the static type ([meta::Real], [meta::Complex]) or kept at run time
    ([meta::RealOrComplex]). *)
Inductive nspace := NReal | NComplex | NDyn (is_complex_current : bool).
(** vector/src/vector_types/mod.rs:57-63 *)
Inductive ddomain := Time | Frequency.
(** vector/src/meta.rs:49-92 *)
Inductive dmarker := DTime | DFreq | DDyn (domain_current : ddomain).

(** meta.rs:7-9, 19-21, 33-35 *)
Definition ns_is_complex (n : nspace) : bool :=
  match n with NReal => false | NComplex => true | NDyn b => b end.
(** meta.rs:10-11, 22-23, 37-43: the static markers ignore the request *)
Definition ns_to_complex (n : nspace) : nspace :=
  match n with NDyn _ => NDyn true | _ => n end.
(** meta.rs:11, 23, 41-43 *)
Definition ns_to_real (n : nspace) : nspace :=
  match n with NDyn _ => NDyn false | _ => n end.
(** meta.rs:52-54, 64-66, 78-80 *)
Definition dm_domain (d : dmarker) : ddomain :=
  match d with DTime => Time | DFreq => Frequency | DDyn x => x end.
(** meta.rs:55-56, 67-68, 82-88 *)
Definition dm_to_freq (d : dmarker) : dmarker :=
  match d with DDyn _ => DDyn Frequency | _ => d end.
(** meta.rs:56, 67, 86-88 *)
Definition dm_to_time (d : dmarker) : dmarker :=
  match d with DDyn _ => DDyn Time | _ => d end.

(** [derive(PartialEq)]: vector_types/mod.rs:57-63 *)
Definition ddomain_eqb (a b : ddomain) : bool :=
  match a, b with Time, Time | Frequency, Frequency => true | _, _ => false end.

(** ** Vectors *)

(** [DspVec]: vector/src/vector_types/mod.rs:123-140.  The multicore settings are passed to the operations which use them
    instead of being a field. *)
Record dvec (A : Type) := DVec {
  data : storage A;
  delta : A;
  domain : dmarker;
  number_space : nspace;
  valid_len : nat;
}.
Arguments DVec {_} _ _ _ _ _.
Arguments data {_} _.
Arguments delta {_} _.
Arguments domain {_} _.
Arguments number_space {_} _.
Arguments valid_len {_} _.

(** Assignment to a field of vector_types/mod.rs:125-140 *)
Definition set_data {A} (v : dvec A) (s : storage A) : dvec A :=
  DVec s (delta v) (domain v) (number_space v) (valid_len v).
(** Assignment to a field of vector_types/mod.rs:125-140; vec_impl_and_indexers.rs:263-265 *)
Definition set_delta {A} (v : dvec A) (d : A) : dvec A :=
  DVec (data v) d (domain v) (number_space v) (valid_len v).
(** Assignment to a field of vector_types/mod.rs:125-140 *)
Definition set_domain {A} (v : dvec A) (d : dmarker) : dvec A :=
  DVec (data v) (delta v) d (number_space v) (valid_len v).
(** Assignment to a field of vector_types/mod.rs:125-140 *)
Definition set_number_space {A} (v : dvec A) (n : nspace) : dvec A :=
  DVec (data v) (delta v) (domain v) n (valid_len v).
(** Assignment to a field of vector_types/mod.rs:125-140 *)
Definition set_valid_len {A} (v : dvec A) (n : nat) : dvec A :=
  DVec (data v) (delta v) (domain v) (number_space v) n.
(** Writing to the elements of the storage through [to_slice_mut] *)
(** requirements.rs:27-30 *)
Definition set_elems {A} (v : dvec A) (l : list A) : dvec A :=
  set_data v (Storage (s_kind (data v)) (s_cap (data v)) l).
(** [self.data.to_slice()] *)
(** requirements.rs:8 *)
Definition elems {A} (v : dvec A) : list A := s_elems (data v).

(** vec_impl_and_indexers.rs:181-198 *)
Definition is_complex {A} (v : dvec A) : bool := ns_is_complex (number_space v).
(** vec_impl_and_indexers.rs:177-179, 192-194 *)
Definition vdomain {A} (v : dvec A) : ddomain := dm_domain (domain v).
(** vec_impl_and_indexers.rs:267 *)
Definition len {A} (v : dvec A) : nat := valid_len v.
(** vec_impl_and_indexers.rs:275 *)
Definition points {A} (v : dvec A) : nat := valid_len v / (if is_complex v then 2 else 1).
(** vec_impl_and_indexers.rs:287: the vector's [alloc_len] is the storage's [len] *)
Definition alloc_len {A} (v : dvec A) : nat := s_len (data v).
(** vec_impl_and_indexers.rs:350-358: [self.data(..)] is [&self.data.to_slice()[0..self.valid_len]] *)
Definition vdata {A} (v : dvec A) : run (list A) := slice (elems v) 0 (valid_len v).

(** vec_impl_and_indexers.rs:208-220 *)
Definition resize {A} (zero : A) (v : dvec A) (l : nat) : dvec A * result unit :=
  if is_complex v && Nat.odd l then (v, Err InputMustHaveAnEvenLength)
  else if alloc_len v <? l then
    match try_resize zero (data v) l with
    | (s, Ok _) => (set_valid_len (set_data v s) l, Ok tt)
    | (s, Err e) => (set_data v s, Err e)
    end
  else (set_valid_len v l, Ok tt).

(** mod.rs:224-228 *)
Definition mark_vector_as_invalid {A} `{Num A} (v : dvec A) : dvec A :=
  set_delta (set_valid_len v 0) nnan.

(** ** Buffers *)

(** The buffers of the crate: [SingleBuffer] support_std.rs:84-126, [NoBuffer] 129-186, [FixedLenBuffer]
    support_core.rs:58-103. [SingleBuffer] and [NoBuffer] only serve [Vec] storages. [NoTradeBuffer] (mod.rs:641-690) is private and
    modelled where it is used. *)
Inductive buffer (A : Type) :=
| SingleBuffer (temp : list A)
| NoBuffer
| FixedLenBuffer (store : list A).
Arguments SingleBuffer {_} _.
Arguments NoBuffer {_}.
Arguments FixedLenBuffer {_} _.

(** [borrow(len)]: the content of the borrowed slice. support_std.rs:116-119, 174-178; support_core.rs:89-97 *)
Definition borrow {A} (zero : A) (b : buffer A) (len : nat) : run (list A) :=
  match b with
  | SingleBuffer temp => Done (resized zero temp len)
  | NoBuffer => Done (replicate len zero)
  | FixedLenBuffer store => if length store <? len then Panicked else Done (take len store)
  end.

(** [trade(storage)] of a borrow whose content became [target].  Returns the storage and the buffer afterwards.
    support_std.rs:79-81, 163-165 ([mem::swap] of two [Vec]s); support_core.rs:49-55 (copy of the common prefix). *)
Definition trade {A} (b : buffer A) (target : list A) (s : storage A) : storage A * buffer A :=
  match b with
  | SingleBuffer _ => (Storage (s_kind s) (length target) target, SingleBuffer (s_elems s))
  | NoBuffer => (Storage (s_kind s) (length target) target, NoBuffer)
  | FixedLenBuffer store =>
      let n := Nat.min (s_len s) (length target) in
      (Storage (s_kind s) (s_cap s) (take n target ++ drop n (s_elems s)),
       FixedLenBuffer (target ++ drop (length target) store))
  end.

(** Which buffers the types allow for a storage: [SingleBuffer] and [NoBuffer] implement [Buffer<Vec<T>, T>] only. *)
(** The implementations of [Buffer]: support_std.rs:110-124, 167-183, support_core.rs:82-103 *)
Definition buffer_fits {A} (b : buffer A) (s : storage A) : bool :=
  match b, s_kind s with
  | FixedLenBuffer _, KSlice => false
  | FixedLenBuffer _, _ => true
  | _, KVec => true
  | _, _ => false
  end.

(** vec_impl_and_indexers.rs:230-249 *)
Definition resize_b {A} (zero : A) (b : buffer A) (v : dvec A) (l : nat) : run (dvec A * buffer A * result unit) :=
  if is_complex v && Nat.odd l then Done (v, b, Err InputMustHaveAnEvenLength)
  else match resize zero v l with
  | (v', Ok _) => Done (v', b, Ok tt)
  | (v', Err _) =>
      let orig_len := len v' in
      temp ← borrow zero b l;
      src ← vdata v';
      temp ← copy_into temp 0 orig_len src;
      let '(s, b') := trade b temp (data v') in
      Done (set_valid_len (set_data v' s) l, b', Ok tt)
  end.

(** ** Constructors *)

(** [expand_to_full_capacity]: support_std.rs:633-640 *)
Definition expand_to_full_capacity {A} (zero : A) (s : storage A) : storage A :=
  Storage (s_kind s) (s_cap s) (s_elems s ++ replicate (s_cap s - s_len s) zero).

(** The constructors which are used by name. *)
(** to_from_vec_conversions.rs:16-128 *)
Inductive ctor :=
| ToRealTime | ToRealFreq | ToComplexTime | ToComplexFreq          (* to_real_time_vec, ... *)
| ToGen (c : bool) (d : ddomain)                                   (* to_gen_dsp_vec *)
| ToDspVec (n : nspace) (d : dmarker)                              (* to_dsp_vec with meta data *)
| FromRealTime | FromRealFreq | FromComplexTime | FromComplexFreq. (* From<S> *)

(** support_core.rs:308-780, support_std.rs:283-520, to_from_vec_conversions.rs:222-304. [Vec]'s to_*_time/freq_vec expand the
    storage to its full capacity, and so do the [From] impls, where the [expect] can not fail. The meta data argument of
    [to_dsp_vec] also carries a delta; it is taken as one here. *)
Definition construct {A} `{Num A} (c : ctor) (s : storage A) : run (dvec A) :=
  let n := s_len s in
  let even_or_0 := if Nat.even n then n else 0 in
  let s_exp := match s_kind s with KVec => expand_to_full_capacity n0 s | _ => s end in
  match c with
  | ToRealTime => Done (DVec s_exp n1 DTime NReal n)
  | ToRealFreq => Done (DVec s_exp n1 DFreq NReal n)
  | ToComplexTime => Done (DVec s_exp n1 DTime NComplex even_or_0)
  | ToComplexFreq => Done (DVec s_exp n1 DFreq NComplex even_or_0)
  | ToGen cplx d =>
      let l := match s_kind s with
               | KSlice => n            (* support_core.rs:515-531: no check *)
               | _ => if Nat.odd n && cplx then 0 else n
               end in
      Done (DVec s n1 (DDyn d) (NDyn cplx) l)
  | ToDspVec ns d => Done (DVec s n1 d ns (if Nat.odd n && ns_is_complex ns then 0 else n))
  | FromRealTime | FromRealFreq | FromComplexTime | FromComplexFreq =>
      match try_resize n0 s (s_alloc_len s) with
      | (s', Ok _) =>
          Done (match c with
                | FromRealTime => DVec s' n1 DTime NReal n
                | FromRealFreq => DVec s' n1 DFreq NReal n
                | FromComplexTime => DVec s' n1 DTime NComplex n
                | _ => DVec s' n1 DFreq NComplex n
                end)
      | (_, Err _) => Panicked
      end
  end.

(** [Vec<Complex<T>>::to_complex_time_vec / to_complex_freq_vec]: support_std.rs:387-417 with
    complex_vec_to_interleaved_vec 642-654: [&mut trans[0]] panics when the expanded vector is empty. [cap] is the capacity of the
    [Vec<Complex<T>>]. *)
Definition construct_complex_vec {A} `{Num A} (d : dmarker) (cap : nat) (l : list (A * A)) : run (dvec A) :=
  let expanded := l ++ replicate (cap - length l) (n0, n0) in
  match expanded with
  | [] => Panicked
  | _ => let arr := complex_to_array expanded in
         Done (DVec (Storage KVec (length arr) arr) n1 d NComplex (2 * length l))
  end.

(** [&[Complex<T>]] and [&mut [Complex<T>]]: support_core.rs:603-640, 735-770 *)
Definition construct_complex_slice {A} `{Num A} (k : skind) (d : dmarker) (l : list (A * A)) : dvec A :=
  let arr := complex_to_array l in
  DVec (Storage k (length arr) arr) n1 d NComplex (length arr).

(** [interleave_to_complex_time_vec / _freq_vec]: support_std.rs:525-592 *)
Definition interleave_to_complex {A} `{Num A} (d : dmarker) (re im : list A) : result (dvec A) :=
  if negb (length re =? length im) then Err InputMustHaveTheSameSize
  else let arr := complex_to_array (zip re im) in
       Ok (DVec (Storage KVec (length arr) arr) n1 d NComplex (length arr)).

(** ** Getting the data out *)

(** [getf], and [get] of real vectors: to_from_vec_conversions.rs:190-219 *)
Definition getf {A} (v : dvec A) : storage A * nat := (data v, valid_len v).

(** [Vec<T>::from(DspVec real)]: support_std.rs:607-618 *)
Definition into_vec_real {A} (v : dvec A) : list A := take (valid_len v) (elems v).

(** interleaved_vec_to_complex_vec: support_std.rs:657-671, with the capacity of the [Vec]. *)
Definition interleaved_vec_to_complex_vec {A} `{Num A} (cap : nat) (l : list A) : run (list (A * A)) :=
  let expanded := l ++ replicate (cap - length l) n0 in
  match expanded with
  | [] => Panicked
  | _ => Done (pairs_of expanded)
  end.

(** [get] of complex [Vec] vectors: support_std.rs:593-603 *)
Definition get_complex_vec {A} `{Num A} (v : dvec A) : run (list (A * A) * nat) :=
  l ← interleaved_vec_to_complex_vec (s_cap (data v)) (elems v);
  Done (l, valid_len v / 2).

(** [get] of complex slice vectors: support_core.rs:775-799 *)
Definition get_complex_slice {A} (v : dvec A) : run (list (A * A) * nat) :=
  l ← array_to_complex (elems v); Done (l, valid_len v / 2).

(** [Vec<Complex<T>>::from(DspVec complex)]: support_std.rs:619-631; [truncate] keeps the capacity *)
Definition into_vec_complex {A} `{Num A} (v : dvec A) : run (list (A * A)) :=
  interleaved_vec_to_complex_vec (s_cap (data v)) (take (valid_len v) (elems v)).

(** ** Rededication *)

(** The type aliases to which rededicate_and_relations.rs:206-346 converts. *)
Inductive vtype := VRealTime | VRealFreq | VComplexTime | VComplexFreq | VGen.

(** [rededicate_from_force]: rededicate_and_relations.rs:206-313 *)
Definition rededicate_from_force {A} (t : vtype) (v : dvec A) : dvec A :=
  match t with
  | VRealTime => set_domain (set_number_space v NReal) DTime
  | VRealFreq => set_domain (set_number_space v NReal) DFreq
  | VComplexTime => set_domain (set_number_space v NComplex) DTime
  | VComplexFreq => set_domain (set_number_space v NComplex) DFreq
  | VGen => set_domain (set_number_space v (NDyn (is_complex v))) (DDyn (vdomain v))
  end.

(** [rededicate_with_runtime_data]: rededicate_and_relations.rs:217-219, ..., 318-327 *)
Definition rededicate_with_runtime_data {A} (t : vtype) (v : dvec A) (c : bool) (d : ddomain) : dvec A :=
  match t with
  | VGen => set_domain (set_number_space (rededicate_from_force t v) (NDyn c)) (DDyn d)
  | _ => rededicate_from_force t v
  end.

(** [rededicate_from]: rededicate_and_relations.rs:336-346, also [rededicate]. [resize 0] can not fail. *)
Definition rededicate_from {A} (zero : A) (t : vtype) (v : dvec A) : dvec A :=
  let r := rededicate_from_force t v in
  if negb (Bool.eqb (is_complex r) (is_complex v)) && negb (ddomain_eqb (vdomain r) (vdomain v))
  then fst (resize zero r 0)
  else r.
