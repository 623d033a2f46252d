(** Model of vector/src/vector_types/general/{statistics,precise_stats,dot_products,mapping,mod}.rs. No proofs here. *)
From Verif Require Export Model_Float.

(** statistics.rs:12-31 *)
Record statistics (P : Type) := Stats {
  st_sum : P;
  st_count : nat;
  st_average : P;
  st_rms : P;
  st_min : P;
  st_min_index : nat;
  st_max : P;
  st_max_index : nat;
}.
Arguments Stats {_} _ _ _ _ _ _ _ _.
Arguments st_sum {_} _.
Arguments st_count {_} _.
Arguments st_average {_} _.
Arguments st_rms {_} _.
Arguments st_min {_} _.
Arguments st_min_index {_} _.
Arguments st_max {_} _.
Arguments st_max_index {_} _.

(** What the real and the complex implementation of [Stats] differ in: the code of the two is the same otherwise (statistics.rs:181-265 and 266-352).
    [t_lt a b] is [a < b] for real numbers and [a.norm() < b.norm()] for complex numbers; the complex [merge] keeps the norms of the current extremes in
    variables, here they are recomputed. *)
Class StatOps (P : Type) := {
  t_zero : P;
  t_add : P -> P -> P;
  t_sub : P -> P -> P;
  t_mul : P -> P -> P;
  t_divn : P -> nat -> P;       (* x / T::from(n) *)
  t_sqrt : P -> P;
  t_lt : P -> P -> bool;
  t_min0 : P;                   (* empty().min *)
  t_max0 : P;                   (* empty().max *)
  t_nan : P;
}.

(** statistics.rs:181-265 *)
Global Instance real_stats {A} `{Num A} `{Flt A} : StatOps A := {|
  t_zero := n0; t_add := nadd; t_sub := nsub; t_mul := nmul; t_divn := fun x n => (x / nofnat n)%num; t_sqrt := fsqrt;
  t_lt := nltb; t_min0 := finf; t_max0 := fneginf; t_nan := nnan |}.
(** statistics.rs:266-354; [empty().max] is the number zero *)
Global Instance complex_stats {A} `{Num A} `{Flt A} : StatOps (A * A) := {|
  t_zero := (n0, n0); t_add := cadd; t_sub := csub; t_mul := cmul;
  t_divn := fun x n => (fst x / nofnat n, snd x / nofnat n)%num; t_sqrt := fcsqrt;
  t_lt := fun x y => nltb (fhypot (fst x) (snd x)) (fhypot (fst y) (snd y));
  t_min0 := (finf, finf); t_max0 := (n0, n0); t_nan := (nnan, nnan) |}.

Section stats.
Context {P : Type} `{StatOps P}.

(** statistics.rs:185-196, 270-282 *)
Definition stats_empty : statistics P := Stats t_zero 0 t_zero t_zero t_min0 0 t_max0 0.
(** statistics.rs:198-209, 284-295 *)
Definition stats_invalid : statistics P := Stats t_zero 0 t_nan t_nan t_nan 0 t_nan 0.

(** statistics.rs:251-263, 341-353: while values are added the field rms has the sum of the squares *)
Definition stats_add (st : statistics P) (elem : P) (index : nat) : statistics P :=
  let max_changes := t_lt (st_max st) elem in
  let min_changes := t_lt elem (st_min st) in
  Stats (t_add (st_sum st) elem) (st_count st + 1) (st_average st) (t_add (st_rms st) (t_mul elem elem))
    (if min_changes then elem else st_min st) (if min_changes then index else st_min_index st)
    (if max_changes then elem else st_max st) (if max_changes then index else st_max_index st).

(** statistics.rs:211-246, 297-336. Note the [else if]. *)
Definition merge_step (acc st : statistics P) : statistics P :=
  let max_changes := t_lt (st_max acc) (st_max st) in
  let min_changes := negb max_changes && t_lt (st_min st) (st_min acc) in
  Stats (t_add (st_sum acc) (st_sum st)) (st_count acc + st_count st) (st_average acc) (t_add (st_rms acc) (st_rms st))
    (if min_changes then st_min st else st_min acc) (if min_changes then st_min_index st else st_min_index acc)
    (if max_changes then st_max st else st_max acc) (if max_changes then st_max_index st else st_max_index acc).
(** statistics.rs:211-246, 297-336 *)
Definition stats_merge (stats : list (statistics P)) : statistics P :=
  match stats with
  | [] => stats_invalid
  | first :: _ =>
      let start := Stats t_zero 0 t_zero t_zero (st_min first) (st_min_index first) (st_max first) (st_max_index first) in
      let r := foldl merge_step start stats in
      Stats (st_sum r) (st_count r) (t_divn (st_sum r) (st_count r)) (t_sqrt (t_divn (st_rms r) (st_count r)))
        (st_min r) (st_min_index r) (st_max r) (st_max_index r)
  end.

(** statistics.rs:34: the capacity of a [StatsVec] *)
Definition STATS_VEC_CAPACITY := 16.

(** statistics.rs:152-169: a [StatsVec] panics when more than 16 elements are pushed *)
Definition merge_cols (stats : list (list (statistics P))) : run (list (statistics P)) :=
  match stats with
  | [] => Done []
  | first :: _ =>
      loop (length first) 0 (fun i results =>
        reordered ← all_done (map (fun s => rd s i) stats);
        _ ← assert_ (length reordered <=? STATS_VEC_CAPACITY);
        _ ← assert_ (length results + 1 <=? STATS_VEC_CAPACITY);
        Done (results ++ [stats_merge reordered])) []
  end.

(** The workers: statistics.rs:374-383, 598-609 *)
Definition stats_worker (start : nat) (l : list P) : statistics P :=
  fst (foldl (fun '(st, j) x => (stats_add st x j, j + 1)) (stats_empty, start) l).
(** statistics.rs:414-424, 638-650 *)
Definition split_worker (k start : nat) (l : list P) : run (list (statistics P)) :=
  r ← foldl (fun m x => '(results, j) ← m; i ← umod j k; st ← rd results i;
                        results ← wr results i (stats_add st x (j / k)); Done (results, j + 1))
        (Done (replicate k stats_empty, start)) l;
  Done (fst r).

(** precise_stats.rs:622-643, 651-677 *)
Definition stats_add_prec (st : statistics P) (elem : P) (index : nat) (sumc rmsc : P) : statistics P * P * P :=
  let y := t_sub elem sumc in
  let t := t_add (st_sum st) y in
  let sumc' := t_sub (t_sub t (st_sum st)) y in
  let y2 := t_sub (t_mul elem elem) rmsc in
  let t2 := t_add (st_rms st) y2 in
  let rmsc' := t_sub (t_sub t2 (st_rms st)) y2 in
  let max_changes := t_lt (st_max st) elem in
  let min_changes := t_lt elem (st_min st) in
  (Stats t (st_count st + 1) (st_average st) t2
    (if min_changes then elem else st_min st) (if min_changes then index else st_min_index st)
    (if max_changes then elem else st_max st) (if max_changes then index else st_max_index st), sumc', rmsc').

(** precise_stats.rs:217-228, 460-473 *)
Definition stats_worker_prec (start : nat) (l : list P) : statistics P :=
  fst (fst (fst (foldl (fun '(st, sumc, rmsc, j) x => (stats_add_prec st x j sumc rmsc, j + 1)) (stats_empty, t_zero, t_zero, start) l))).
(** precise_stats.rs:258-270, 505-519: one pair of compensations for all buckets *)
Definition split_worker_prec (k start : nat) (l : list P) : run (list (statistics P)) :=
  r ← foldl (fun m x => '(results, sumc, rmsc, j) ← m; i ← umod j k; st ← rd results i;
                        let '(st', sumc', rmsc') := stats_add_prec st x (j / k) sumc rmsc in
                        results ← wr results i st'; Done (results, sumc', rmsc', j + 1))
        (Done (replicate k stats_empty, t_zero, t_zero, start)) l;
  Done (fst (fst (fst r))).

(** general/mod.rs:23-37, 41-55 *)
Definition kahan_sum {Q} (zero : Q) (add sub : Q -> Q -> Q) (l : list Q) : Q :=
  fst (foldl (fun '(sum, c) n => let y := sub n c in let t := add sum y in (t, sub (sub t sum) y)) (zero, zero) l).
End stats.

(** ** Vector operations *)
Section ops.
Context {A : Type} `{Num A} `{Flt A}.

(** The two number spaces: the valid elements as numbers, with the index of the first one of a piece. Real: statistics.rs:365-386; complex: 589-612 with
    [range.start / 2] and [array_to_complex]. *)
Definition real_piece {R} (f : nat -> list A -> run R) (array : list A) (range : nat * nat) : run R := f (fst range) array.
(** statistics.rs:589-611 *)
Definition complex_piece {R} (f : nat -> list (A * A) -> run R) (array : list A) (range : nat * nat) : run R :=
  c ← array_to_complex array; f (fst range / 2) c.

(** statistics.rs:365-386 *)
Definition vstatistics (s : settings) (order : list nat) (v : dvec A) : run (statistics A) :=
  array ← slice (elems v) 0 (len v);
  chunks ← get_chunked_results Small s order array 1 (real_piece (fun j l => Done (stats_worker j l)));
  Done (stats_merge chunks).
(** statistics.rs:589-611 *)
Definition vstatistics_complex (s : settings) (order : list nat) (v : dvec A) : run (statistics (A * A)) :=
  array ← slice (elems v) 0 (len v);
  chunks ← get_chunked_results Small s order array 2 (complex_piece (fun j l => Done (stats_worker j l)));
  Done (stats_merge chunks).

(** statistics.rs:398-429 *)
Definition vstatistics_split (s : settings) (order : list nat) (v : dvec A) (k : nat) : run (result (list (statistics A))) :=
  if k =? 0 then Done (Ok [])
  else if STATS_VEC_CAPACITY <? k then Done (Err InvalidArgumentLength)
  else
    array ← slice (elems v) 0 (len v);
    chunks ← get_chunked_results Small s order array 1 (real_piece (fun j l => split_worker k j l));
    r ← merge_cols chunks;
    Done (Ok r).
(** statistics.rs:623-655 *)
Definition vstatistics_split_complex (s : settings) (order : list nat) (v : dvec A) (k : nat) : run (result (list (statistics (A * A)))) :=
  if k =? 0 then Done (Ok [])
  else if STATS_VEC_CAPACITY <? k then Done (Err InvalidArgumentLength)
  else
    array ← slice (elems v) 0 (len v);
    chunks ← get_chunked_results Small s order array 2 (complex_piece (fun j l => split_worker k j l));
    r ← merge_cols chunks;
    Done (Ok r).

(** precise_stats.rs:208-231 (f64; the f32 versions 134-157 convert to f64 and use the plain [add]) *)
Definition vstatistics_prec (s : settings) (order : list nat) (v : dvec A) : run (statistics A) :=
  array ← slice (elems v) 0 (len v);
  chunks ← get_chunked_results Small s order array 1 (real_piece (fun j l => Done (stats_worker_prec j l)));
  Done (stats_merge chunks).
(** precise_stats.rs:451-475 *)
Definition vstatistics_prec_complex (s : settings) (order : list nat) (v : dvec A) : run (statistics (A * A)) :=
  array ← slice (elems v) 0 (len v);
  chunks ← get_chunked_results Small s order array 2 (complex_piece (fun j l => Done (stats_worker_prec j l)));
  Done (stats_merge chunks).

(** precise_stats.rs:242-275 *)
Definition vstatistics_split_prec (s : settings) (order : list nat) (v : dvec A) (k : nat) : run (result (list (statistics A))) :=
  if k =? 0 then Done (Ok [])
  else if STATS_VEC_CAPACITY <? k then Done (Err InvalidArgumentLength)
  else
    array ← slice (elems v) 0 (len v);
    chunks ← get_chunked_results Small s order array 1 (real_piece (fun j l => split_worker_prec k j l));
    r ← merge_cols chunks;
    Done (Ok r).
(** precise_stats.rs:486-523 *)
Definition vstatistics_split_prec_complex (s : settings) (order : list nat) (v : dvec A) (k : nat) : run (result (list (statistics (A * A)))) :=
  if k =? 0 then Done (Ok [])
  else if STATS_VEC_CAPACITY <? k then Done (Err InvalidArgumentLength)
  else
    array ← slice (elems v) 0 (len v);
    chunks ← get_chunked_results Small s order array 2 (complex_piece (fun j l => split_worker_prec k j l));
    r ← merge_cols chunks;
    Done (Ok r).

(** *** Sums *)

(** fallback.rs:245-252, 372-379 (sum_real, sum_complex) *)
Definition reg_sum {Q} (zero : Q) (add : Q -> Q -> Q) (lanes : list Q) : Q :=
  match lanes with [] => zero | x :: l => foldl add x l end.
(** simd_extensions/fallback.rs:245-247, 372-374 *)
Definition reg_sum_real (reg : list A) : A := reg_sum n0 nadd reg.
(** simd_extensions/fallback.rs:250-252, 377-379 *)
Definition reg_sum_complex (reg : list A) : A * A := reg_sum (n0, n0) cadd (pairs_of reg).

(** [Reg::array_to_regs] of a piece at address [addr] *)
(** simd_extensions/mod.rs:248-258 *)
Definition regs_of (r : reg_type) (addr : nat) (l : list A) : run (list (list A)) :=
  _ ← assert_ (regs_check r addr (length l)); Done (chunks_fuel (length l) (reg_len r) l).

(** statistics.rs:439-468, 470-499 (real): [reg_op] is what is added for each register and [op] for each edge element *)
Definition simd_sum (reg_op : list A -> list A) (op : A -> A) (r : reg_type) (addr : nat) (s : settings) (order : list nat) (v : dvec A) : run A :=
  array ← slice (elems v) 0 (len v);
  part ← calc_data_alignment_reqs r addr (length array);
  '(from, to) ← center_range part;
  center ← slice (elems v) from to;
  chunks ← get_chunked_results Small s order center (reg_len r) (fun piece range =>
    regs ← regs_of r (addr + (from + fst range) * elem_size r) piece;
    Done (foldl (fun sum reg => reg_bin nadd sum (reg_op reg)) (splat r n0) regs));
  edge ← edge_iter part (elems v);
  Done (foldl nadd n0 (map reg_sum_real chunks) + foldl (fun sum x => sum + op x) n0 edge)%num.
(** statistics.rs:439-468, 571-573 *)
Definition vsum := simd_sum (fun x => x) (fun x => x).
(** statistics.rs:470-499, 575-577 *)
Definition vsum_sq := simd_sum (fun x => reg_bin nmul x x) (fun x => x * x)%num.

(** statistics.rs:501-530, 532-561 (complex): the edges are taken from the whole storage, reinterpreted *)
Definition simd_sum_complex (reg_op : list A -> list A) (op : A * A -> A * A) (r : reg_type) (addr : nat) (s : settings) (order : list nat)
    (v : dvec A) : run (A * A) :=
  array ← slice (elems v) 0 (len v);
  part ← calc_data_alignment_reqs r addr (length array);
  '(from, to) ← center_range part;
  center ← slice (elems v) from to;
  chunks ← get_chunked_results Small s order center (reg_len r) (fun piece range =>
    regs ← regs_of r (addr + (from + fst range) * elem_size r) piece;
    Done (foldl (fun sum reg => reg_bin nadd sum (reg_op reg)) (splat r n0) regs));
  pairs ← array_to_complex (elems v);
  edge ← cedge_iter part pairs;
  Done (cadd (foldl cadd (n0, n0) (map reg_sum_complex chunks)) (foldl (fun sum x => cadd sum (op x)) (n0, n0) edge)).
(** statistics.rs:501-530, 665-667 *)
Definition vsum_complex := simd_sum_complex (fun x => x) (fun x => x).
(** statistics.rs:532-561, 669-671 *)
Definition vsum_sq_complex := simd_sum_complex (fun x => reg_cbin cmul x x) (fun x => cmul x x).

(** precise_stats.rs:332-358 (f64 real) and 582-617 (f64 complex); the f32 versions convert and use plain sums *)
Definition vsum_prec (op : A -> A) (s : settings) (order : list nat) (v : dvec A) : run A :=
  array ← slice (elems v) 0 (len v);
  chunks ← get_chunked_results Small s order array 1 (fun piece _ => Done (kahan_sum n0 nadd nsub (map op piece)));
  Done (foldl nadd n0 chunks).
(** precise_stats.rs:582-614 *)
Definition vsum_prec_complex (op : A * A -> A * A) (s : settings) (order : list nat) (v : dvec A) : run (A * A) :=
  array ← slice (elems v) 0 (len v);
  chunks ← get_chunked_results Small s order array 2 (fun piece _ => c ← array_to_complex piece; Done (kahan_sum (n0, n0) cadd csub (map op c)));
  Done (foldl cadd (n0, n0) chunks).

(** *** Dot products *)

(** The worker: dot_products.rs:92-102, 143-152, 191-200, 241-250. [reg_total] adds up the products: plainly or with [kahan_sum]. *)
Definition dot_worker {Q} (r : reg_type) (addr : nat) (reg_mul : list A -> list A -> list A) (reg_total : list (list A) -> list A)
    (total_lanes : list A -> Q) (original : list A) (range : nat * nat) (target : list A) : run Q :=
  regs ← regs_of r (addr + fst range * elem_size r) target;
  prods ← all_done (imap (fun i a => b ← slice original (fst range + i * reg_len r) (fst range + i * reg_len r + reg_len r); Done (reg_mul a b)) regs);
  Done (total_lanes (reg_total prods)).
(** dot_products.rs:92-102, 143-152 (the sum in the closure) *)
Definition plain_total (r : reg_type) (l : list (list A)) : list A := foldl (reg_bin nadd) (splat r n0) l.
(** dot_products.rs:191-200, 241-250 (the sum in the closure) *)
Definition kahan_total (r : reg_type) (l : list (list A)) : list A := kahan_sum (splat r n0) (reg_bin nadd) (reg_bin nsub) l.

(** dot_products.rs:67-112 and, with [kahan_total], 166-210 *)
Definition dot_real (reg_total : reg_type -> list (list A) -> list A) (r : reg_type) (addr : nat) (s : settings) (order : list nat)
    (v o : dvec A) : run (result A) :=
  if is_complex v then Done (Err InputMustBeReal)
  else
    array ← slice (elems v) 0 (len v);
    part ← calc_data_alignment_reqs r addr (length array);
    other ← vdata o;
    '(from, to) ← center_range part;
    ocenter ← slice other from to;
    center ← slice (elems v) from to;
    chunks ← get_zipped Small s order ocenter (reg_len r) center (reg_len r)
      (dot_worker r (addr + from * elem_size r) (reg_bin nmul) (reg_total r) reg_sum_real);
    edge ← edge_iter part (elems v);
    oedge ← edge_iter part other;
    Done (Ok (foldl nadd n0 chunks + foldl (fun sum '(a, b) => sum + a * b) n0 (zip edge oedge))%num).
(** dot_products.rs:67-112, 277-279 *)
Definition dot_product := dot_real plain_total.
(** dot_products.rs:166-210, 311-313 *)
Definition dot_product_prec := dot_real kahan_total.

(** dot_products.rs:114-164 and 212-262 *)
Definition dot_complex (reg_total : reg_type -> list (list A) -> list A) (r : reg_type) (addr : nat) (s : settings) (order : list nat)
    (v o : dvec A) : run (result (A * A)) :=
  if negb (is_complex v) then Done (Err InputMustBeComplex)
  else if negb (is_complex o) || negb (ddomain_eqb (vdomain v) (vdomain o)) then Done (Err InputMetaDataMustAgree)
  else
    array ← slice (elems v) 0 (len v);
    part ← calc_data_alignment_reqs r addr (length array);
    other ← vdata o;
    '(from, to) ← center_range part;
    ocenter ← slice other from to;
    center ← slice (elems v) from to;
    chunks ← get_zipped Small s order ocenter (reg_len r) center (reg_len r)
      (dot_worker r (addr + from * elem_size r) (reg_cbin cmul) (reg_total r) reg_sum_complex);
    pairs ← array_to_complex (elems v);
    edge ← cedge_iter part pairs;
    opairs ← array_to_complex other;
    oedge ← cedge_iter part opairs;
    Done (Ok (cadd (foldl cadd (n0, n0) chunks) (foldl (fun sum '(a, b) => cadd sum (cmul a b)) (n0, n0) (zip edge oedge)))).
(** dot_products.rs:114-164, 294-296 *)
Definition dot_product_complex := dot_complex plain_total.
(** dot_products.rs:212-262, 328-330 *)
Definition dot_product_prec_complex := dot_complex kahan_total.

(** *** Mapping *)

(** mapping.rs:53-79: the whole storage ([to_slice_mut()] without a range) *)
Definition map_inplace (f : A -> nat -> A) (s : settings) (sched : list nat) (v : dvec A) : run (dvec A) :=
  if is_complex v then Done (mark_vector_as_invalid v)
  else
    l ← execute_with_range Small s sched (elems v) 1 (fun range n => elem_steps (fun i x => Done (f x (fst range + i))) n);
    Done (set_elems v l).
(** mapping.rs:163-190 *)
Definition map_inplace_complex (f : A * A -> nat -> A * A) (s : settings) (sched : list nat) (v : dvec A) : run (dvec A) :=
  if negb (is_complex v) then Done (mark_vector_as_invalid v)
  else
    l ← execute_with_range Small s sched (elems v) 2 (fun range n =>
          block_steps 2 (n mod 2 =? 0) (fun i b => Done (on_pairs (fun x => f x (fst range / 2 + i)) b)) n);
    Done (set_elems v l).

(** mapping.rs:119-131: the worker *)
Definition aggregate_worker {P R} (f : P -> nat -> R) (g : R -> R -> R) (start : nat) (l : list P) : option R :=
  fst (foldl (fun '(sum, i) x => (Some (match sum with None => f x i | Some s => g s (f x i) end), i + 1)) (None, start) l).
(** mapping.rs:134-152: two [pop] loops, the first reverses the results, the second takes them from the end again *)
Definition aggregate_results {R} (g : R -> R -> R) (results : list (option R)) : result R :=
  match rev (omap id (rev results)) with
  | [] => Err InputMustNotBeEmpty
  | x :: l => Ok (foldl g x l)
  end.

(** mapping.rs:92-153 *)
Definition map_aggregate {R} (f : A -> nat -> R) (g : R -> R -> R) (s : settings) (order : list nat) (v : dvec A) : run (result R) :=
  if is_complex v then Done (Err InputMustBeReal)
  else if length (elems v) =? 0 then Done (Err InputMustNotBeEmpty)
  else
    results ← map_on_array_chunks Small s order (elems v) 1 (real_piece (fun i l => Done (aggregate_worker f g i l)));
    Done (aggregate_results g results).
(** mapping.rs:203-265 *)
Definition map_aggregate_complex {R} (f : A * A -> nat -> R) (g : R -> R -> R) (s : settings) (order : list nat) (v : dvec A) : run (result R) :=
  if negb (is_complex v) then Done (Err InputMustBeComplex)
  else if length (elems v) =? 0 then Done (Err InputMustNotBeEmpty)
  else
    results ← map_on_array_chunks Small s order (elems v) 2 (complex_piece (fun i l => Done (aggregate_worker f g i l)));
    Done (aggregate_results g results).
End ops.
