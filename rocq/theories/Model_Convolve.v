(** Model of the convolutions of vector/src/vector_types/time_freq/mod.rs. No proofs here. *)
From Verif Require Export Model_Window Model_Stats.

(** ** Iterators which wrap around *)

(** time_freq/mod.rs:726-734, 788-796. The raw pointers [start], [end] and [pos] are positions in the slice; [start] is 0 and [end] the length
    minus one. *)
Record witer := WIter { wi_pos : nat; wi_count : nat }.

(** time_freq/mod.rs:766-785, 828-847 ([new] is the same in both iterators). The remainder by an empty slice's length panics. The [while] loop adds
    the length at most once, since the remainder is larger than minus the length; a second round would exhaust the fuel. *)
Definition wi_new (len : nat) (pos : Z) (iter_len : nat) : run witer :=
  if len =? 0 then Panicked
  else
    pos ← while_ 2 (fun p => (p <? 0)%Z) (fun p => Done (p + Z.of_nat len)%Z) (Z.rem pos (Z.of_nat len));
    Done (WIter (Z.to_nat pos) iter_len).

(** time_freq/mod.rs:742-759 *)
Definition wi_next {P} (l : list P) (it : witer) : run (option (P * witer)) :=
  match wi_count it with
  | 0 => Done None
  | S count =>
      let n := if wi_pos it <? length l - 1 then wi_pos it + 1 else 0 in
      x ← rd l n;
      Done (Some (x, WIter n count))
  end.

(** time_freq/mod.rs:804-821 *)
Definition rwi_next {P} (l : list P) (it : witer) : run (option (P * witer)) :=
  match wi_count it with
  | 0 => Done None
  | S count =>
      let n := if 0 <? wi_pos it then wi_pos it - 1 else length l - 1 in
      x ← rd l n;
      Done (Some (x, WIter n count))
  end.

(** All the items which an iterator yields: [for x in iter]. The fuel is the count plus one; not using it up would be an error, too. *)
(** Serves time_freq/mod.rs:456-496. *)
Fixpoint items_fuel {P} (fuel : nat) (next : witer -> run (option (P * witer))) (it : witer) : run (list P) :=
  match fuel with
  | 0 => Panicked
  | S fuel' =>
      r ← next it;
      match r with
      | None => Done []
      | Some (x, it') => rest ← items_fuel fuel' next it'; Done (x :: rest)
      end
  end.
(** The loops over the iterators: time_freq/mod.rs:456-496 *)
Definition items {P} (next : witer -> run (option (P * witer))) (it : witer) : run (list P) := items_fuel (wi_count it + 1) next it.

Section points.
Context {P : Type} (zero : P) (add mul : P -> P -> P).

(** The [zip] of time_freq/mod.rs:468-473: takes from the data iterator first and ends as soon as one of both has no more items *)
Fixpoint convolve_zip (data : list P) (it : witer) (other : list P) (sum : P) : run P :=
  r ← rwi_next data it;
  match r, other with
  | Some (this, it'), o :: other' => convolve_zip data it' other' (add sum (mul this o))
  | _, _ => Done sum
  end.

(** time_freq/mod.rs:456-474 *)
Definition convolve_iteration (data other : list P) (i conv_len full_conv_len : nat) : run P :=
  it ← wi_new (length data) (Z.of_nat i + Z.of_nat conv_len) full_conv_len;
  convolve_zip data it other zero.

(** time_freq/mod.rs:283-297 (and the same lines in 226-240, 391-404): which part of the impulse response is used, the number of steps and the
    distance from a point to the end of its neighbourhood *)
Definition conv_window (points other_points : nat) : run (nat * nat * nat * nat) :=
  if points <? other_points then
    let center := other_points / 2 in
    let conv_len := points / 2 in
    other_start ← usub center conv_len;
    Done (other_start, center + conv_len, points, conv_len)
  else Done (0, other_points, other_points, other_points - other_points / 2).

(** time_freq/mod.rs:302-329, 331-359: both branches of the scalar code without the conversions; [dest] is the content of the target before *)
Definition convolve_points (s : settings) (sched : list nat) (points other_points : nat) (data other dest : list P) : run (list P) :=
  '(other_start, other_end, full_conv_len, conv_len) ← conv_window points other_points;
  other_iter ← slice other other_start other_end;
  execute_with_range Large s sched dest 1 (fun range n =>
    elem_steps (fun i _ => convolve_iteration data other_iter (fst range + i) conv_len full_conv_len) n).

(** time_freq/mod.rs:476-496: continues with the same sum from row to row *)
Definition convolve_mat_iteration (matrix imp_resp : list (list P)) (i conv_len full_conv_len : nat) : run P :=
  foldl (fun m '(data, other_iter) =>
           sum ← m;
           it ← wi_new (length data) (Z.of_nat i + Z.of_nat conv_len) full_conv_len;
           convolve_zip data it other_iter sum)
        (Done zero) (zip matrix imp_resp).

(** time_freq/mod.rs:425-434, 439-448 *)
Definition convolve_mat_points (matrix imp_resp : list (list P)) (conv_len full_conv_len : nat) (dest : list P) : run (list P) :=
  loop (length dest) 0 (fun i dest => x ← convolve_mat_iteration matrix imp_resp i conv_len full_conv_len; wr dest i x) dest.
End points.

Section convolve_function.
Context {A : Type} `{Num A} {P : Type} (zero : P) (add mul : P -> P -> P).

(** The inner loop of time_freq/mod.rs:202-207; [j] counts in the number type *)
Definition function_sum (f : A -> P) (ratio : A) (conv_len : nat) (neighbours : list P) : P :=
  fst (foldl (fun '(sum, j) c => (add sum (mul c (f (nopp j * ratio)%num)), (j + n1)%num)) (zero, nopp (nofnat conv_len)) neighbours).

(** time_freq/mod.rs:193-210 *)
Definition convolve_function_points (f : A -> P) (ratio : A) (conv_len : nat) (data dest : list P) : run (list P) :=
  let conv_len := if length data <? conv_len then length data else conv_len in
  loop (length dest) 0 (fun i dest =>
    it ← wi_new (length data) (Z.of_nat i - Z.of_nat conv_len - 1) (2 * conv_len + 1);
    neighbours ← items (wi_next data) it;
    wr dest i (function_sum f ratio conv_len neighbours)) dest.
End convolve_function.

Section vectors.
Context {A : Type} `{Num A}.

(** The two conversions between the array and the points: [|x| x] and [array_to_complex(_mut)] *)
(** time_freq/mod.rs:302-329 (real branch), 174-213 (the arguments [convert], [convert_mut]) *)
Definition as_reals (l : list A) : run (list A) := Done l.
(** time_freq/mod.rs:302-329 (complex branch), 174-213 (the arguments [convert], [convert_mut]) *)
Definition as_complex (l : list A) : run (list (A * A)) := array_to_complex l.

(** Borrows a buffer of the size of the vector, fills it and trades it for the storage: time_freq/mod.rs:299-305 with 330 (complex), 332-337 with 360
    (real), and 188-196 with 213. [f] gets the points of the vector and the previous points of the buffer. *)
Definition into_buffer {P} (convert : list A -> run (list P)) (back : list P -> list A) (b : buffer A) (v : dvec A)
    (f : list P -> list P -> run (list P)) : run (dvec A * buffer A) :=
  temp ← borrow n0 b (len v);
  data ← slice (elems v) 0 (len v);
  data ← convert data;
  dest ← slice temp 0 (len v);
  dest ← convert dest;
  dest ← f data dest;
  temp ← splice temp 0 (back dest);
  let '(st, b') := trade b temp (Model_Vec.data v) in
  Done (set_data v st, b').

(** time_freq/mod.rs:275-362 *)
Definition convolve_signal_scalar (s : settings) (sched : list nat) (b : buffer A) (v o : dvec A) : run (dvec A * buffer A) :=
  if is_complex v then
    into_buffer as_complex complex_to_array b v (fun data dest =>
      other ← vdata o;
      other ← slice other 0 (len o);
      other ← as_complex other;
      convolve_points (n0, n0) cadd cmul s sched (points v) (points o) data other dest)
  else
    into_buffer as_reals (fun x => x) b v (fun data dest =>
      other ← vdata o;
      other ← slice other 0 (len o);
      convolve_points n0 nadd nmul s sched (points v) (points o) data other dest).

(** time_freq/mod.rs:174-214 with the callers in time_freq/convolution.rs:173-192 and 244-253 *)
Definition convolve_function_real (f : A -> A) (ratio : A) (conv_len : nat) (b : buffer A) (v : dvec A) : run (dvec A * buffer A) :=
  into_buffer as_reals (fun x => x) b v (convolve_function_points n0 nadd nmul f ratio conv_len).
(** time_freq/mod.rs:174-213, called in time_freq/convolution.rs:173-192, 235-254 *)
Definition convolve_function_complex (f : A -> A * A) (ratio : A) (conv_len : nat) (b : buffer A) (v : dvec A) : run (dvec A * buffer A) :=
  into_buffer as_complex complex_to_array b v (convolve_function_points (n0, n0) cadd cmul f ratio conv_len).

(** ** Convolution with SIMD registers *)

(** [current[k] = x; k += 1; if k >= current.len() { copy.push(Reg::load(current, 0)); k = 0; }]: time_freq/mod.rs:120-125 and the same lines below *)
Definition push_lane (x : A) (st : list (list A) * list A * nat) : run (list (list A) * list A * nat) :=
  let '(copy, current, k) := st in
  current ← wr current k x;
  if length current <=? k + 1 then Done (copy ++ [current], current, 0) else Done (copy, current, k + 1).

(** [data.next().unwrap()] on the reversed iterator: takes the last element *)
(** time_freq/mod.rs:91-156 *)
Definition take_last (l : list A) : run (A * list A) :=
  match rev l with [] => Panicked | x :: l' => Done (x, rev l') end.

(** time_freq/mod.rs:91-156: one of the copies; [j] counts down *)
Definition shifted_copy (w step shift : nat) (data : list A) : run (list (list A)) :=
  let min_len := length data + shift in
  let n := (min_len + w - 1) / w in
  r ← while_ (n * w + 1) (fun '(j, _, _) => 0 <? j) (fun '(j, data, st) =>
        j ← usub j step;
        if (j <? shift) || (min_len <=? j) then
          st ← push_lane n0 st;
          if 1 <? step then st ← push_lane n0 st; Done (j, data, st) else Done (j, data, st)
        else if 1 <? step then
          '(im, data) ← take_last data;
          '(re, data) ← take_last data;
          st ← push_lane re st;
          st ← push_lane im st;
          Done (j, data, st)
        else
          '(x, data) ← take_last data;
          st ← push_lane x st;
          Done (j, data, st)) (n * w, data, ([], replicate w n0, 0));
  let '(_, _, (copy, _, k)) := r in
  _ ← assert_ (k =? 0);
  _ ← assert_ (length copy =? n);
  Done copy.

(** time_freq/mod.rs:81-165 *)
Definition create_shifted_copies (r : reg_type) (o : dvec A) : run (list (list (list A))) :=
  let step := if is_complex o then 2 else 1 in
  number_of_shifts ← udiv (reg_len r) step;
  data ← vdata o;
  loop number_of_shifts 0 (fun i copies =>
    m ← umod (number_of_shifts - i) number_of_shifts;
    copy ← shifted_copy (reg_len r) step (m * step) data;
    Done (copies ++ [copy])) [].

(** time_freq/mod.rs:531-609. [simd] are the registers of the vector, which start at the point [scalar_left_points]. *)
Definition simd_point {P} (simd_mul : list A -> list A -> list A) (simd_sum : list A -> P) (r : reg_type)
    (shifts : list (list (list A))) (simd : list (list A)) (scalar_left_points conv_len i : nat) : run P :=
  end_ ← usub (i + conv_len) scalar_left_points;
  shift ← umod end_ (length shifts);
  e ← usub (end_ + length shifts) 1;
  end_ ← udiv e (length shifts);
  shifted ← rd shifts shift;
  from ← usub end_ (length shifted);
  regs ← slice simd from end_;
  Done (simd_sum (foldl (fun sum '(this, other) => reg_bin nadd sum (simd_mul this other)) (splat r n0) (zip regs shifted))).

(** time_freq/mod.rs:531-610 *)
Definition convolve_signal_simd_impl {P} (zero : P) (add mul : P -> P -> P) (convert : list A -> run (list P)) (back : list P -> list A)
    (simd_mul : list A -> list A -> list A) (simd_sum : list A -> P) (r : reg_type) (addr : nat) (s : settings) (sched : list nat)
    (b : buffer A) (v o : dvec A) : run (dvec A * buffer A) :=
  let other_points := points o in
  _ ← assert_ (other_points <? points v);
  let full_conv_len := other_points in
  let conv_len := other_points - other_points / 2 in
  into_buffer convert back b v (fun data dest =>
    other ← vdata o;
    other ← slice other 0 (len o);
    other ← convert other;
    other_iter ← slice other 0 other_points;
    shifts ← create_shifted_copies r o;
    let scalar_len := conv_len + reg_len r in
    part ← calc_data_alignment_reqs r addr (len v);
    let step := if is_complex v then 2 else 1 in
    let scalar_left_points := p_left part / step in
    '(from, to) ← center_range part;
    center ← slice (elems v) from to;
    simd ← regs_of r (addr + from * elem_size r) center;
    upto ← usub (points v) scalar_len;
    mid ← slice dest scalar_len upto;
    mid ← execute_with_range Large s sched mid 1 (fun range n =>
      elem_steps (fun i _ => simd_point simd_mul simd_sum r shifts simd scalar_left_points conv_len (scalar_len + (fst range + i))) n);
    dest ← splice dest scalar_len mid;
    edge_update (length dest) scalar_len scalar_len (fun i _ => convolve_iteration zero add mul data other_iter i conv_len full_conv_len) dest).

(** time_freq/mod.rs:498-526 *)
Definition convolve_signal_simd (r : reg_type) (addr : nat) (s : settings) (sched : list nat) (b : buffer A) (v o : dvec A) :
    run (dvec A * buffer A) :=
  if is_complex v then
    convolve_signal_simd_impl (n0, n0) cadd cmul as_complex complex_to_array (reg_cbin cmul) reg_sum_complex r addr s sched b v o
  else
    convolve_signal_simd_impl n0 nadd nmul as_reals (fun x => x) (reg_bin nmul) reg_sum_real r addr s sched b v o.

(** ** Convolution of a matrix *)

(** [iter.collect()] into an [InlineVector]: inline_vector/dynamic.rs:257-268. The vector is created with the capacity 64, which makes it an [ArrayVec] of that
    size (dynamic.rs:52-58); [ArrayVec::push] panics if it is full. Everywhere else the code creates an [InlineVector] with the capacity which it then fills
    (with_capacity, of_size, with_elem), so that a [Vec] has the same effect. *)
Definition inline_from_iter {P} (l : list P) : run (list P) := if 64 <? length l then Panicked else Done l.
(** time_freq/mod.rs:365-451. The storages are taken as they are ([data.to_slice()]), not cut to the valid length. *)
Definition convolve_mat (matrix imp_resp : list (dvec A)) (target : list A) : run (list A * result unit) :=
  match imp_resp, matrix with
  | h :: _, x :: _ =>
      if negb (length imp_resp =? length matrix) then Done (target, Err InvalidArgumentLength)
      else if existsb (fun v => negb (len v =? len x)) matrix then Done (target, Err InvalidArgumentLength)
      else if existsb (fun v => negb (len v =? len h)) imp_resp then Done (target, Err InvalidArgumentLength)
      else
        '(other_start, other_end, full_conv_len, conv_len) ← conv_window (points x) (points h);
        _ ← inline_from_iter imp_resp;
        _ ← inline_from_iter matrix;
        if is_complex x then
          others ← all_done (map (fun o => c ← slice (elems o) 0 (len h); c ← array_to_complex c; slice c other_start other_end) imp_resp);
          (* line 423: cut to the length of the impulse response *)
          data_vecs ← all_done (map (fun o => c ← slice (elems o) 0 (len h); array_to_complex c) matrix);
          dest ← slice target 0 (len x);
          dest ← array_to_complex dest;
          dest ← convolve_mat_points (n0, n0) cadd cmul data_vecs others conv_len full_conv_len dest;
          target ← splice target 0 (complex_to_array dest);
          Done (target, Ok tt)
        else
          others ← all_done (map (fun o => slice (elems o) other_start other_end) imp_resp);
          data_vecs ← all_done (map (fun o => slice (elems o) 0 (len x)) matrix);
          dest ← slice target 0 (len x);
          dest ← convolve_mat_points n0 nadd nmul data_vecs others conv_len full_conv_len dest;
          target ← splice target 0 dest;
          Done (target, Ok tt)
  | _, _ => Done (target, Err InvalidArgumentLength)
  end.
End vectors.
