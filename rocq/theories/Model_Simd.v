(** Model of vector/src/simd_extensions/simd_partition.rs, simd_extensions/mod.rs and of the generic operations of
    vector/src/vector_types/mod.rs which use them. No proofs here.

    A register is the list of its [reg_len] lanes. The backends (fallback, sse, avx) give the lane operations; the ones modelled are those of
    the fallback (simd_extensions/fallback.rs). The start address of the storage in memory is a parameter. *)
From Verif Require Export Model_Vec Model_Chunk.

(** A register type: number of lanes and the size of an element in bytes. [mem::size_of::<Reg>()] is their product. *)
(** vector/src/simd_extensions/mod.rs:11-75, 83-151 *)
Record reg_type := RegType { reg_len : nat; elem_size : nat }.
(** simd_extensions/fallback.rs:9 *)
Definition f32x4 := RegType 4 4.
(** simd_extensions/fallback.rs:14 *)
Definition f64x2 := RegType 2 8.
(** simd_extensions/avx.rs *)
Definition f32x8 := RegType 8 4.
(** simd_extensions/avx.rs *)
Definition f64x4 := RegType 4 8.
(** simd_extensions/mod.rs:194-206 ([mem::size_of::<Self>()]) *)
Definition reg_bytes (r : reg_type) : nat := reg_len r * elem_size r.

(** simd_partition.rs:6-13 *)
Record simd_partition := SimdPartition { p_left : nat; p_right : nat; p_len : nat }.

(** simd_extensions/mod.rs:180-206, simd_partition.rs:119-135; [addr] is the address of the first element *)
Definition calc_data_alignment_reqs (r : reg_type) (addr data_length : nat) : run simd_partition :=
  left_bytes ← umod addr (reg_bytes r);
  rest ← umod left_bytes (elem_size r);
  _ ← assert_ (rest =? 0);
  left ← udiv left_bytes (elem_size r);
  if data_length <? left + reg_len r then Done (SimdPartition data_length 0 data_length)
  else
    right ← umod (data_length - left) (reg_len r);
    Done (SimdPartition left right data_length).

(** The iterator state machine of [EdgeIteratorMut] and [IndexedEdgeIteratorMut]: simd_partition.rs:24-62, 74-116. Positions are
    relative to the start of the slice; the pointers [left] and [end] may be one before it. *)
Fixpoint edge_walk (fuel : nat) (pos left right end_ : Z) : list nat :=
  match fuel with
  | 0 => []
  | S fuel' =>
      let pos := if (left <? pos)%Z && (pos <? right)%Z then right else pos in
      if (end_ <? pos)%Z then [] else Z.to_nat pos :: edge_walk fuel' (pos + 1) left right end_
  end.
(** simd_partition.rs:138-167 *)
Definition edge_positions (len left right : nat) : list nat :=
  edge_walk (len + 1) 0 (Z.of_nat left - 1) (Z.of_nat len - Z.of_nat right) (Z.of_nat len - 1).

(** [for n in edge_iter_mut { n = op(pos, n) }] *)
(** Called in vector_types/mod.rs:299-333, 358-392. *)
Definition edge_update {A} (len left right : nat) (op : nat -> A -> run A) (l : list A) : run (list A) :=
  foldl (fun m p => l ← m; x ← rd l p; y ← op p x; wr l p y) (Done l) (edge_positions len left right).

(** [zip] with the elements of another (immutable) iterator; ends with the shorter one *)
(** Called in elementary.rs:383-455. *)
Definition edge_update_zip {A B} (len left right : nat) (other : list B) (op : A -> B -> A) (l : list A) : run (list A) :=
  foldl (fun m '(p, o) => l ← m; x ← rd l p; wr l p (op x o)) (Done l) (zip (edge_positions len left right) other).

(** simd_partition.rs:138-150 edge_iter, cedge_iter *)
Definition edge_iter {A} (p : simd_partition) (l : list A) : run (list A) :=
  a ← slice l 0 (p_left p);
  s ← usub (p_len p) (p_right p);
  b ← slice l s (p_len p);
  Done (a ++ b).
(** simd_partition.rs:145-149 *)
Definition cedge_iter {A} (p : simd_partition) (l : list A) : run (list A) :=
  a ← slice l 0 (p_left p / 2);
  s ← usub (p_len p / 2) (p_right p / 2);
  b ← slice l s (p_len p / 2);
  Done (a ++ b).

(** simd_partition.rs:170-186 center, center_mut: the bounds of the center; (0, 0) for the empty slice *)
Definition center_range (p : simd_partition) : run (nat * nat) :=
  if p_left p =? p_len p then Done (0, 0)
  else e ← usub (p_len p) (p_right p); Done (p_left p, e).
(** simd_partition.rs:188-195 rcenter_mut *)
Definition rcenter_range (p : simd_partition) : run (nat * nat) :=
  if p_left p =? p_len p then Done (0, 0)
  else e ← usub (p_len p / 2) (p_right p / 2); Done (p_left p / 2, e).

(** ** Steps of a worker *)

(** [for num in array { num = op(num) }] *)
(** The closures of vector_types/mod.rs:233-280 *)
Definition elem_steps {A} (op : nat -> A -> run A) (n : nat) : list (step A) :=
  map (fun i c => x ← rd c i; y ← op i x; wr c i y) (seq 0 n).

(** Reinterprets the piece as blocks of [w] elements (checked with [pre]) and updates block by block. *)
(** The closures of vector_types/mod.rs:299-333, 358-392, elementary.rs:383-455 *)
Definition block_steps {A} (w : nat) (pre : bool) (g : nat -> list A -> run (list A)) (n : nat) : list (step A) :=
  (fun c => _ ← assert_ pre; Done c) ::
  map (fun i c => b ← slice c (i * w) (i * w + w); b' ← g i b; splice c (i * w) b') (seq 0 (n / w)).

(** The checks of [array_to_regs(_mut)] (simd_extensions/mod.rs:248-271) and of [transmute_slice] (lib.rs:238-269) for a piece which starts
    at address [addr] *)
Definition regs_check (r : reg_type) (addr n : nat) : bool :=
  (n =? 0) || ((addr mod reg_bytes r =? 0) && (n mod reg_len r =? 0)).

(** The complex numbers in a list: [array_to_complex_mut] on a piece *)
(** vector/src/lib.rs:272-279 *)
Definition on_pairs {A} (op : A * A -> A * A) (l : list A) : list A := complex_to_array (map op (pairs_of l)).

(** vector_types/mod.rs:233-254 *)
Definition pure_real_operation {A} (s : settings) (sched : list nat) (op : A -> A) (c : complexity) (v : dvec A) : run (dvec A) :=
  array ← slice (elems v) 0 (valid_len v);
  array ← execute_partial c s sched array 1 (fun _ n => elem_steps (fun _ x => Done (op x)) n);
  l ← splice (elems v) 0 array;
  Done (set_elems v l).

(** vector_types/mod.rs:258-280 *)
Definition pure_complex_operation {A} (s : settings) (sched : list nat) (op : A * A -> A * A) (c : complexity) (v : dvec A) :
    run (dvec A) :=
  array ← slice (elems v) 0 (valid_len v);
  array ← execute_partial c s sched array 2
    (fun _ n => block_steps 2 (n mod 2 =? 0) (fun _ b => Done (on_pairs op b)) n);
  l ← splice (elems v) 0 array;
  Done (set_elems v l).

(** vector_types/mod.rs:283-333 *)
Definition simd_real_operation {A} (r : reg_type) (addr : nat) (s : settings) (sched : list nat)
    (simd_op : list A -> list A) (scalar_op : A -> A) (c : complexity) (v : dvec A) : run (dvec A) :=
  part ← calc_data_alignment_reqs r addr (valid_len v);
  _ ← slice (elems v) 0 (valid_len v);
  '(from, to) ← center_range part;
  center ← slice (elems v) from to;
  center ← execute_partial c s sched center (reg_len r)
    (fun off n => block_steps (reg_len r) (regs_check r (addr + (from + off) * elem_size r) n)
                    (fun _ b => Done (simd_op b)) n);
  l ← splice (elems v) from center;
  array ← slice l 0 (valid_len v);
  array ← edge_update (p_len part) (p_left part) (p_right part) (fun _ x => Done (scalar_op x)) array;
  l ← splice l 0 array;
  Done (set_elems v l).

(** vector_types/mod.rs:336-392 *)
Definition simd_complex_operation {A} (r : reg_type) (addr : nat) (s : settings) (sched : list nat)
    (simd_op : list A -> list A) (scalar_op : A * A -> A * A) (c : complexity) (v : dvec A) : run (dvec A) :=
  part ← calc_data_alignment_reqs r addr (valid_len v);
  _ ← slice (elems v) 0 (valid_len v);
  '(from, to) ← center_range part;
  center ← slice (elems v) from to;
  center ← execute_partial c s sched center (reg_len r)
    (fun off n => block_steps (reg_len r) (regs_check r (addr + (from + off) * elem_size r) n)
                    (fun _ b => Done (simd_op b)) n);
  l ← splice (elems v) from center;
  array ← slice l 0 (valid_len v);
  pairs ← array_to_complex array;
  pairs ← slice pairs 0 (p_len part / 2);
  pairs ← edge_update (p_len part / 2) (p_left part / 2) (p_right part / 2) (fun _ x => Done (scalar_op x)) pairs;
  l ← splice l 0 (complex_to_array pairs);
  Done (set_elems v l).

(** vector_types/mod.rs:396-433 *)
Definition pure_complex_to_real_operation {A} (zero : A) (s : settings) (sched : list nat) (b : buffer A) (op : A * A -> A)
    (c : complexity) (v : dvec A) : run (dvec A * buffer A) :=
  let data_length := valid_len v in
  temp ← borrow zero b (data_length / 2);
  array ← slice (elems v) 0 data_length;
  target ← slice temp 0 (data_length / 2);
  target ← from_src_to_dest c s sched (length array) 2 target 1 (fun '(from, to) _ n =>
    (fun t => src ← slice array from to; _ ← array_to_complex src; Done t) ::
    map (fun i t => src ← slice array from to; src ← array_to_complex src;
                    match src !! i with
                    | Some x => wr t i (op x)
                    | None => Done t            (* the zip ends *)
                    end) (seq 0 n));
  temp ← splice temp 0 target;
  let '(st, b') := trade b temp (data v) in
  Done (set_data (set_valid_len v (data_length / 2)) st, b').

(** vector_types/mod.rs:437-452 *)
Definition pure_complex_to_real_operation_inplace {A} (op : A * A -> A) (v : dvec A) : run (dvec A) :=
  l ← loop (valid_len v / 2) 0 (fun i l =>
        x ← rd l (2 * i);
        y ← rd l (2 * i + 1);
        wr l i (op (x, y))) (elems v);
  Done (set_valid_len (set_elems v l) (valid_len v / 2)).

(** vector_types/mod.rs:456-506. [simd_op] gives the lanes which [store_half] writes. *)
Definition simd_complex_to_real_operation {A} (r : reg_type) (addr : nat) (zero : A) (s : settings) (sched : list nat) (b : buffer A)
    (simd_op : list A -> list A) (scalar_op : A * A -> A) (c : complexity) (v : dvec A) : run (dvec A * buffer A) :=
  let data_length := valid_len v in
  temp ← borrow zero b (data_length / 2);
  part ← calc_data_alignment_reqs r addr data_length;
  _ ← slice (elems v) 0 data_length;
  '(from, to) ← center_range part;
  center ← slice (elems v) from to;
  '(rfrom, rto) ← rcenter_range part;
  rcenter ← slice temp rfrom rto;
  rcenter ← from_src_to_dest c s sched (length center) (reg_len r) rcenter (reg_len r / 2) (fun '(f, t) _ n =>
    (fun tg => piece ← slice center f t;
               _ ← assert_ (regs_check r (addr + (from + f) * elem_size r) (t - f)); Done tg) ::
    map (fun j tg => reg ← slice center (f + j * reg_len r) (f + (j + 1) * reg_len r);
                     splice tg (j * (reg_len r / 2)) (take (reg_len r / 2) (simd_op reg)))
        (seq 0 ((t - f) / reg_len r)));
  temp ← splice temp rfrom rcenter;
  array ← slice (elems v) 0 data_length;
  array ← array_to_complex array;
  src ← cedge_iter part array;
  target ← slice temp 0 (p_len part / 2);
  target ← edge_update_zip (p_len part / 2) (p_left part / 2) (p_right part / 2) src (fun _ x => scalar_op x) target;
  temp ← splice temp 0 target;
  let '(st, b') := trade b temp (data v) in
  Done (set_data (set_valid_len v (valid_len v / 2)) st, b').
