(** Model of vector/src/vector_types/general/elementary.rs. No proofs here. *)
From Verif Require Export Model_Simd.

Section elem.
Context {A : Type} `{Num A}.

(** num_complex arithmetic *)
(** The arithmetic used in elementary.rs:420-455, 487-517. *)
Definition cadd (x y : A * A) : A * A := (fst x + fst y, snd x + snd y)%num.
(** num_complex [Sub] *)
Definition csub (x y : A * A) : A * A := (fst x - fst y, snd x - snd y)%num.
(** num_complex [Mul] *)
Definition cmul (x y : A * A) : A * A :=
  (fst x * fst y - snd x * snd y, fst x * snd y + snd x * fst y)%num.
(** num_complex [Div] *)
Definition cdiv (x y : A * A) : A * A :=
  let norm_sqr := (fst y * fst y + snd y * snd y)%num in
  ((fst x * fst y + snd x * snd y) / norm_sqr, (snd x * fst y - fst x * snd y) / norm_sqr)%num.

(** Lane operations of the fallback registers: fallback.rs:70-155 (add, sub, mul, div) and 163-215 (add_real, scale_real, scale_complex,
    mul_complex, div_complex); f64x2 is alike *)
Definition reg_bin (op : A -> A -> A) (a b : list A) : list A := zip_with op a b.
(** mul_complex, div_complex: simd_extensions/fallback.rs:195-214, 330-343 *)
Definition reg_cbin (op : A * A -> A * A -> A * A) (a b : list A) : list A :=
  complex_to_array (zip_with op (pairs_of a) (pairs_of b)).
(** simd_extensions/fallback.rs:23-25, 59-61 *)
Definition splat (r : reg_type) (x : A) : list A := replicate (reg_len r) x.
(** simd_extensions/fallback.rs:163-165, 300-302 *)
Definition from_complex (r : reg_type) (x : A * A) : list A := complex_to_array (replicate (reg_len r / 2) x).

(** elementary.rs:290-306: a real offset of a complex vector only changes the real parts *)
Definition offset_real (r : reg_type) (addr : nat) (s : settings) (sched : list nat) (offset : A) (v : dvec A) : run (dvec A) :=
  if is_complex v then
    let y := from_complex r (offset, n0) in
    simd_complex_operation r addr s sched (fun x => reg_bin nadd x y) (fun x => cadd x (offset, n0)) Small v
  else simd_real_operation r addr s sched (fun x => reg_bin nadd x (splat r offset)) (fun x => x + offset)%num Small v.

(** elementary.rs:316-324, with assert_complex! 288-295 *)
Definition offset_complex (r : reg_type) (addr : nat) (s : settings) (sched : list nat) (offset : A * A) (v : dvec A) : run (dvec A) :=
  if negb (is_complex v) then Done (mark_vector_as_invalid v)
  else simd_complex_operation r addr s sched (fun x => reg_bin nadd x (from_complex r offset)) (fun x => cadd x offset) Small v.

(** elementary.rs:334-341 *)
Definition scale_real (r : reg_type) (addr : nat) (s : settings) (sched : list nat) (factor : A) (v : dvec A) : run (dvec A) :=
  simd_real_operation r addr s sched (fun x => reg_bin nmul x (splat r factor)) (fun x => x * factor)%num Small v.

(** elementary.rs:351-359 *)
Definition scale_complex (r : reg_type) (addr : nat) (s : settings) (sched : list nat) (factor : A * A) (v : dvec A) : run (dvec A) :=
  if negb (is_complex v) then Done (mark_vector_as_invalid v)
  else simd_complex_operation r addr s sched (fun x => on_pairs (fun p => cmul p factor) x) (fun x => cmul x factor) Small v.

(** elementary.rs:370-381 assert_meta_data! (true: the meta data disagree); 1.1 and 0.9 are taken as 11/10 and 9/10 *)
Definition meta_disagree (v o : dvec A) : bool :=
  let delta_ratio := (delta v / delta o)%num in
  negb (Bool.eqb (is_complex v) (is_complex o)) || negb (ddomain_eqb (vdomain v) (vdomain o)) ||
  nltb (nofnat 11 / nofnat 10)%num delta_ratio || nltb delta_ratio (nofnat 9 / nofnat 10)%num.

(** The worker of the binary operations: elementary.rs:400-408, 437-445 *)
Definition bin_steps (r : reg_type) (addr : nat) (simd_op : list A -> list A -> list A) (original : list A)
    (range : nat * nat) (off n : nat) : list (step A) :=
  block_steps (reg_len r) (regs_check r (addr + off * elem_size r) n)
    (fun i b => o ← slice original (fst range + i * reg_len r) (fst range + i * reg_len r + reg_len r); Done (simd_op b o)) n.

(** elementary.rs:383-418 impl_binary_vector_operation! *)
Definition binary_op (r : reg_type) (addr : nat) (s : settings) (sched : list nat)
    (simd_op : list A -> list A -> list A) (scal_op : A -> A -> A) (v o : dvec A) : run (dvec A * result unit) :=
  if negb (len v =? len o) then Done (v, Err InputMustHaveTheSameSize)
  else if meta_disagree v o then Done (v, Err InputMetaDataMustAgree)
  else
    _ ← slice (elems v) 0 (valid_len v);
    part ← calc_data_alignment_reqs r addr (valid_len v);
    other ← vdata o;
    '(from, to) ← center_range part;
    original ← slice other from to;
    target ← slice (elems v) from to;
    target ← from_src_to_dest Small s sched (length original) (reg_len r) target (reg_len r)
      (fun range off n => bin_steps r (addr + from * elem_size r) simd_op original range off n);
    l ← splice (elems v) from target;
    array ← slice l 0 (p_len part);
    edge ← edge_iter part other;
    array ← edge_update_zip (p_len part) (p_left part) (p_right part) edge scal_op array;
    l ← splice l 0 array;
    Done (set_elems v l, Ok tt).

(** elementary.rs:420-455 impl_binary_complex_vector_operation!: here the whole storage becomes complex *)
Definition binary_complex_op (r : reg_type) (addr : nat) (s : settings) (sched : list nat)
    (simd_op : list A -> list A -> list A) (scal_op : A * A -> A * A -> A * A) (v o : dvec A) : run (dvec A * result unit) :=
  if negb (len v =? len o) then Done (v, Err InputMustHaveTheSameSize)
  else if meta_disagree v o then Done (v, Err InputMetaDataMustAgree)
  else
    _ ← slice (elems v) 0 (valid_len v);
    part ← calc_data_alignment_reqs r addr (valid_len v);
    other ← vdata o;
    '(from, to) ← center_range part;
    original ← slice other from to;
    target ← slice (elems v) from to;
    target ← from_src_to_dest Small s sched (length original) (reg_len r) target (reg_len r)
      (fun range off n => bin_steps r (addr + from * elem_size r) simd_op original range off n);
    l ← splice (elems v) from target;
    array ← array_to_complex l;
    array' ← slice array 0 (p_len part / 2);
    cother ← array_to_complex other;
    edge ← cedge_iter part cother;
    array' ← edge_update_zip (p_len part / 2) (p_left part / 2) (p_right part / 2) edge scal_op array';
    l ← splice l 0 (complex_to_array array');
    Done (set_elems v l, Ok tt).

(** elementary.rs:457-485 impl_binary_smaller_vector_operation!; the worker takes [i % operand.len()] *)
Definition binary_smaller_op (r : reg_type) (s : settings) (sched : list nat) (scal_op : A -> A -> A) (v o : dvec A) :
    run (dvec A * result unit) :=
  rest ← umod (len v) (len o);
  if negb (rest =? 0) then Done (v, Err InvalidArgumentLength)
  else if meta_disagree v o then Done (v, Err InputMetaDataMustAgree)
  else
    other ← vdata o;
    target ← slice (elems v) 0 (valid_len v);
    target ← from_src_to_dest Small s sched (length other) (reg_len r) target 1 (fun range _ n =>
      elem_steps (fun i x => k ← umod (fst range + i) (length other); y ← rd other k; Done (scal_op x y)) n);
    l ← splice (elems v) 0 target;
    Done (set_elems v l, Ok tt).

(** elementary.rs:487-517 impl_binary_smaller_complex_vector_ops! *)
Definition binary_smaller_complex_op (r : reg_type) (s : settings) (sched : list nat) (scal_op : A * A -> A * A -> A * A)
    (v o : dvec A) : run (dvec A * result unit) :=
  rest ← umod (len v) (len o);
  if negb (rest =? 0) then Done (v, Err InvalidArgumentLength)
  else if meta_disagree v o then Done (v, Err InputMetaDataMustAgree)
  else
    other ← vdata o;
    target ← slice (elems v) 0 (valid_len v);
    target ← from_src_to_dest Small s sched (length other) (reg_len r) target 2 (fun range _ n =>
      (fun c => _ ← array_to_complex other; Done c) ::
      block_steps 2 (n mod 2 =? 0) (fun i b =>
        operand ← array_to_complex other;
        k ← umod (fst range + i) (length operand);
        y ← rd operand k;
        Done (on_pairs (fun x => scal_op x y) b)) n);
    l ← splice (elems v) 0 target;
    Done (set_elems v l, Ok tt).

(** elementary.rs:550-588 *)
Definition vadd r addr s sched (v o : dvec A) := binary_op r addr s sched (reg_bin nadd) nadd v o.
(** elementary.rs:554-556 *)
Definition vsub r addr s sched (v o : dvec A) := binary_op r addr s sched (reg_bin nsub) nsub v o.
(** elementary.rs:558-572 *)
Definition vmul r addr s sched (v o : dvec A) : run (dvec A * result unit) :=
  if negb (len v =? len o) then Done (v, Err InputMustHaveTheSameSize)
  else if meta_disagree v o then Done (v, Err InputMetaDataMustAgree)
  else if is_complex v then binary_complex_op r addr s sched (reg_cbin cmul) cmul v o
  else binary_op r addr s sched (reg_bin nmul) nmul v o.
(** elementary.rs:574-588 *)
Definition vdiv r addr s sched (v o : dvec A) : run (dvec A * result unit) :=
  if negb (len v =? len o) then Done (v, Err InputMustHaveTheSameSize)
  else if meta_disagree v o then Done (v, Err InputMetaDataMustAgree)
  else if is_complex v then binary_complex_op r addr s sched (reg_cbin cdiv) cdiv v o
  else binary_op r addr s sched (reg_bin ndiv) ndiv v o.

(** elementary.rs:601-639 *)
Definition add_smaller r s sched (v o : dvec A) := binary_smaller_op r s sched nadd v o.
(** elementary.rs:605-607 *)
Definition sub_smaller r s sched (v o : dvec A) := binary_smaller_op r s sched nsub v o.
(** elementary.rs:609-623 *)
Definition mul_smaller r s sched (v o : dvec A) : run (dvec A * result unit) :=
  rest ← umod (len v) (len o);
  if negb (rest =? 0) then Done (v, Err InvalidArgumentLength)
  else if meta_disagree v o then Done (v, Err InputMetaDataMustAgree)
  else if is_complex v then binary_smaller_complex_op r s sched cmul v o
  else binary_smaller_op r s sched nmul v o.
(** elementary.rs:625-639 *)
Definition div_smaller r s sched (v o : dvec A) : run (dvec A * result unit) :=
  rest ← umod (len v) (len o);
  if negb (rest =? 0) then Done (v, Err InvalidArgumentLength)
  else if meta_disagree v o then Done (v, Err InputMetaDataMustAgree)
  else if is_complex v then binary_smaller_complex_op r s sched cdiv v o
  else binary_smaller_op r s sched ndiv v o.

End elem.
