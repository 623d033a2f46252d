(** Model of vector/src/vector_types/complex/complex_to_real.rs, complex/complex_ops.rs and real/real_to_complex.rs. No proofs here. *)
From Verif Require Export Model_Reorg Model_Stats.

(** rededicate_and_relations.rs:95-117 ([ToRealResult]) and 119-141 ([ToComplexResult]): only the four static types and [GenDspVec] have
    them, so a number space fixed by the type goes with a domain fixed by the type. *)
Definition real_result {A} (v : dvec A) : vtype :=
  match number_space v, domain v with
  | NDyn _, _ | _, DDyn _ => VGen
  | _, DTime => VRealTime
  | _, DFreq => VRealFreq
  end.
(** ToComplexResult: rededicate_and_relations.rs:119-141 *)
Definition complex_result {A} (v : dvec A) : vtype :=
  match number_space v, domain v with
  | NDyn _, _ | _, DDyn _ => VGen
  | _, DTime => VComplexTime
  | _, DFreq => VComplexFreq
  end.

(** [self.number_space.to_real()] and [to_complex()] *)
(** meta.rs:10-11, 22-23, 37-43 *)
Definition vec_to_real {A} (v : dvec A) : dvec A := set_number_space v (ns_to_real (number_space v)).
(** meta.rs:10-11, 22-23, 37-43 *)
Definition vec_to_complex {A} (v : dvec A) : dvec A := set_number_space v (ns_to_complex (number_space v)).

Section complex_ops.
Context {A : Type} `{Num A} `{Flt A}.

(** [x.norm()], [x.arg()], [x.re * x.re + x.im * x.im] *)
(** num_complex, called in complex_to_real.rs:374-447, 635-672 *)
Definition cnorm (x : A * A) : A := fhypot (fst x) (snd x).
(** num_complex, called in complex_to_real.rs:400-405, 661-672 *)
Definition carg (x : A * A) : A := fatan2 (snd x) (fst x).
(** complex_to_real.rs:381-386 ([norm_sqr]) *)
Definition cabs2 (x : A * A) : A := (fst x * fst x + snd x * snd x)%num.
(** fallback.rs:217-231, 346-359: complex_abs_squared, complex_abs. The lanes behind the first half are zero and never stored. *)
Definition reg_abs2 (reg : list A) : list A := map cabs2 (pairs_of reg).
(** complex_abs: simd_extensions/fallback.rs:223-231, 354-359 *)
Definition reg_abs (reg : list A) : list A := map (fun x => fsqrt (cabs2 x)) (pairs_of reg).

(** complex_to_real.rs:355-363 assert_complex! *)
Definition not_complex (v : dvec A) : dvec A :=
  rededicate_from_force (real_result v) (mark_vector_as_invalid (vec_to_real v)).

(** complex_to_real.rs:374-405: the five in place transforms, which differ in [op] *)
Definition complex_to_real (op : A * A -> A) (v : dvec A) : run (dvec A) :=
  if negb (is_complex v) then Done (not_complex v)
  else v' ← pure_complex_to_real_operation_inplace op v; Done (rededicate_from_force (real_result v) (vec_to_real v')).
(** complex_to_real.rs:374-379 *)
Definition magnitude := complex_to_real cnorm.
(** complex_to_real.rs:381-386 *)
Definition magnitude_squared := complex_to_real cabs2.
(** complex_to_real.rs:387-392 *)
Definition to_real := complex_to_real fst.
(** complex_to_real.rs:393-398 *)
Definition to_imag := complex_to_real snd.
(** complex_to_real.rs:400-405 *)
Definition phase := complex_to_real carg.

(** complex_to_real.rs:449-477: the buffered transforms without SIMD *)
Definition complex_to_real_b (op : A * A -> A) (s : settings) (sched : list nat) (b : buffer A) (v : dvec A) : run (dvec A * buffer A) :=
  if negb (is_complex v) then Done (not_complex v, b)
  else '(v', b') ← pure_complex_to_real_operation n0 s sched b op Small v; Done (rededicate_from_force (real_result v) (vec_to_real v'), b').
(** complex_to_real.rs:449-457 *)
Definition to_real_b := complex_to_real_b fst.
(** complex_to_real.rs:459-467 *)
Definition to_imag_b := complex_to_real_b snd.
(** complex_to_real.rs:469-477 *)
Definition phase_b := complex_to_real_b carg.
(** complex_to_real.rs:417-447 *)
Definition complex_to_real_simd_b (reg_op : list A -> list A) (op : A * A -> A) (r : reg_type) (addr : nat) (s : settings) (sched : list nat)
    (b : buffer A) (v : dvec A) : run (dvec A * buffer A) :=
  if negb (is_complex v) then Done (not_complex v, b)
  else '(v', b') ← simd_complex_to_real_operation r addr n0 s sched b reg_op op Small v;
       Done (rededicate_from_force (real_result v) (vec_to_real v'), b').
(** complex_to_real.rs:417-431 *)
Definition magnitude_b := complex_to_real_simd_b reg_abs cnorm.
(** complex_to_real.rs:433-447 *)
Definition magnitude_squared_b := complex_to_real_simd_b reg_abs2 cabs2.

(** complex_to_real.rs:488-525 pure_complex_into_real_target_operation; the [expect] panics *)
Definition pure_into_target (op : A * A -> A) (s : settings) (sched : list nat) (v dst : dvec A) : run (dvec A) :=
  match Model_Vec.resize n0 dst (len v / 2) with
  | (_, Err _) => Panicked
  | (dst, Ok _) =>
      let dst := set_delta dst (delta v) in
      array ← vdata dst;
      array ← slice array 0 (len v / 2);
      source ← slice (elems v) 0 (len v);
      array ← from_src_to_dest Small s sched (length source) 2 array 1 (fun range _ n =>
        map (fun j t => x ← rd source (fst range + 2 * j); y ← rd source (fst range + 2 * j + 1); wr t j (op (x, y))) (seq 0 n));
      l ← splice (elems dst) 0 array;
      Done (set_elems dst l)
  end.

(** complex_to_real.rs:528-573 simd_complex_into_real_target_operation: the partition is the one of the *whole* storage of [self] *)
Definition simd_into_target (reg_op : list A -> list A) (op : A * A -> A) (r : reg_type) (addr : nat) (s : settings) (sched : list nat)
    (v dst : dvec A) : run (dvec A) :=
  match Model_Vec.resize n0 dst (len v / 2) with
  | (_, Err _) => Panicked
  | (dst, Ok _) =>
      let dst := set_delta dst (delta v) in
      temp ← vdata dst;
      temp ← slice temp 0 (len v / 2);
      let array := elems v in
      part ← calc_data_alignment_reqs r addr (length array);
      '(from, to) ← center_range part;
      center ← slice array from to;
      '(rfrom, rto) ← rcenter_range part;
      rcenter ← slice temp rfrom rto;
      rcenter ← from_src_to_dest Small s sched (length center) (reg_len r) rcenter (reg_len r / 2) (fun '(f, t) _ n =>
        (fun tg => piece ← slice center f t;
                   _ ← assert_ (regs_check r (addr + (from + f) * elem_size r) (t - f)); Done tg) ::
        map (fun j tg => reg ← slice center (f + j * reg_len r) (f + (j + 1) * reg_len r);
                         splice tg (j * (reg_len r / 2)) (take (reg_len r / 2) (reg_op reg)))
            (seq 0 ((t - f) / reg_len r)));
      temp ← splice temp rfrom rcenter;
      pairs ← array_to_complex array;
      src ← cedge_iter part pairs;
      target ← slice temp 0 (p_len part / 2);
      target ← edge_update_zip (p_len part / 2) (p_left part / 2) (p_right part / 2) src (fun _ x => op x) target;
      temp ← splice temp 0 target;
      l ← splice (elems dst) 0 temp;
      Done (set_elems dst l)
  end.

(** complex_to_real.rs:576-583 assert_self_complex_and_target_real! and 609-672: the target is first resized to the length of [self] *)
Definition get_into (body : dvec A -> dvec A -> run (dvec A)) (v dst : dvec A) : run (dvec A) :=
  if negb (is_complex v) || is_complex dst then Done (fst (Model_Vec.resize n0 dst 0))
  else match Model_Vec.resize n0 dst (len v) with
       | (_, Err _) => Panicked
       | (dst, Ok _) => body v dst
       end.
(** complex_to_real.rs:609-620 *)
Definition get_real s sched := get_into (pure_into_target fst s sched).
(** complex_to_real.rs:622-633 *)
Definition get_imag s sched := get_into (pure_into_target snd s sched).
(** complex_to_real.rs:661-672 *)
Definition get_phase s sched := get_into (pure_into_target carg s sched).
(** complex_to_real.rs:635-646 *)
Definition get_magnitude r addr s sched := get_into (simd_into_target reg_abs cnorm r addr s sched).
(** complex_to_real.rs:648-659 *)
Definition get_magnitude_squared r addr s sched := get_into (simd_into_target reg_abs2 cabs2 r addr s sched).

(** complex_to_real.rs:585-593 assert_self_complex_and_targets_real! and the two [resize] calls *)
Definition get_two (body : list A -> list A -> run (list A * list A)) (v t1 t2 : dvec A) : run (dvec A * dvec A) :=
  if negb (is_complex v) || is_complex t1 || is_complex t2 then Done (fst (Model_Vec.resize n0 t1 0), fst (Model_Vec.resize n0 t2 0))
  else match Model_Vec.resize n0 t1 (len v / 2), Model_Vec.resize n0 t2 (len v / 2) with
       | (t1, Ok _), (t2, Ok _) =>
           d1 ← vdata t1; d1 ← slice d1 0 (len v / 2);
           d2 ← vdata t2; d2 ← slice d2 0 (len v / 2);
           '(d1, d2) ← body d1 d2;
           l1 ← splice (elems t1) 0 d1;
           l2 ← splice (elems t2) 0 d2;
           Done (set_elems t1 l1, set_elems t2 l2)
       | _, _ => Panicked
       end.
(** complex_to_real.rs:674-691 *)
Definition get_real_imag (v : dvec A) : dvec A -> dvec A -> run (dvec A * dvec A) :=
  get_two (fun re im =>
    source ← slice (elems v) 0 (len v);
    loop (length source) 0 (fun i '(re, im) =>
      n ← rd source i;
      if i mod 2 =? 0 then re ← wr re (i / 2) n; Done (re, im) else im ← wr im (i / 2) n; Done (re, im)) (re, im)) v.
(** complex_to_real.rs:693-712; [while i < data_length] with [i += 2] runs [ceil (data_length / 2)] times *)
Definition get_mag_phase (v : dvec A) : dvec A -> dvec A -> run (dvec A * dvec A) :=
  get_two (fun mag ph =>
    loop ((len v + 1) / 2) 0 (fun j '(mag, ph) =>
      x ← rd (elems v) (2 * j);
      y ← rd (elems v) (2 * j + 1);
      mag ← wr mag j (cnorm (x, y));
      ph ← wr ph j (carg (x, y));
      Done (mag, ph)) (mag, ph)) v.

(** complex_to_real.rs:726-747. Needs a storage which implements [Resize], that is a [Vec] (support_std.rs:242-248): the storage gets exactly
    the new length. *)
Definition set_real_imag (v re im : dvec A) : run (dvec A * result unit) :=
  if negb (len re =? len im) then Done (v, Err InvalidArgumentLength)
  else
    let data_length := len re + len im in
    let '(st, _) := try_resize n0 (data v) data_length in
    let v := set_valid_len (set_data v st) data_length in
    dre ← vdata re;
    dim ← vdata im;
    _ ← slice (elems v) 0 data_length;
    l ← loop data_length 0 (fun i l =>
          if i mod 2 =? 0 then x ← rd dre (i / 2); wr l i x else x ← rd dim (i / 2); wr l i x) (elems v);
    Done (set_elems v l, Ok tt).
(** complex_to_real.rs:749-770 *)
Definition set_mag_phase (v mag ph : dvec A) : run (dvec A * result unit) :=
  if negb (len mag =? len ph) then Done (v, Err InvalidArgumentLength)
  else
    let data_length := len mag + len ph in
    let '(st, _) := try_resize n0 (data v) data_length in
    let v := set_valid_len (set_data v st) data_length in
    dm ← vdata mag;
    dp ← vdata ph;
    l ← loop ((data_length + 1) / 2) 0 (fun j l =>
          m ← rd dm j;
          p ← rd dp j;
          let c := fpolar m p in
          l ← wr l (2 * j) (fst c);
          wr l (2 * j + 1) (snd c)) (elems v);
    Done (set_elems v l, Ok tt).

(** real_to_complex.rs:67-87 *)
Definition to_complex (v : dvec A) : run (dvec A * result unit) :=
  if is_complex v then Done (rededicate_from_force (complex_result v) (vec_to_complex v), Err InputMustBeReal)
  else
    '(v', res) ← zero_interleave n0 v 2;
    Done (rededicate_with_runtime_data (complex_result v) v' true (vdomain v'), res).
(** real_to_complex.rs:99-111 *)
Definition to_complex_b (b : buffer A) (v : dvec A) : run (dvec A * buffer A) :=
  if is_complex v then Done (rededicate_from_force (complex_result v) (mark_vector_as_invalid (vec_to_complex v)), b)
  else
    '(v', b') ← zero_interleave_b n0 b v 2;
    Done (rededicate_from_force (complex_result v) (vec_to_complex v'), b').

(** complex_ops.rs:65-72 assert_complex!: there is no [return], the operation goes on with the invalid vector *)
Definition check_complex (v : dvec A) : dvec A :=
  if negb (is_complex v) then mark_vector_as_invalid (vec_to_real v) else v.

(** complex_ops.rs:107-116; simd_complex_operationf (vector_types/mod.rs:336-392) passes the register [from_complex(factor)] as second argument;
    [x * y] is the element-wise product of the registers *)
Definition cconj (x : A * A) : A * A := (fst x, nopp (snd x)).
(** complex_ops.rs:107-116 *)
Definition vconj (r : reg_type) (addr : nat) (s : settings) (sched : list nat) (v : dvec A) : run (dvec A) :=
  simd_complex_operation r addr s sched (fun x => reg_bin nmul x (from_complex r (n1, nopp n1))) cconj Small (check_complex v).

(** complex_ops.rs:81-105: the state of the worker is its piece and the current exponential; one step per point *)
Definition multiply_complex_exponential (s : settings) (sched : list nat) (a b : A) (v : dvec A) : run (dvec A) :=
  let v := check_complex v in
  let a := (a * delta v)%num in
  let b := (b * delta v)%num in
  array ← slice (elems v) 0 (len v);
  array ← execute_with_range Small s sched array 2 (fun range n =>
    [fun piece =>
       c ← array_to_complex piece;
       let start := cmul (fpolar n1 b) (fpolar n1 (a * nofnat (fst range / 2))%num) in
       let increment := fpolar n1 a in
       let '(c', _) := foldl (fun '(done, e) x => (done ++ [cmul x e], cmul e increment)) ([], start) c in
       Done (complex_to_array c')]);
  l ← splice (elems v) 0 array;
  Done (set_elems v l).
End complex_ops.
