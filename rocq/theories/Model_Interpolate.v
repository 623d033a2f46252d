(** Model of the interpolation with an impulse or a frequency response: vector/src/vector_types/time_freq/interpolation.rs. No proofs here. *)
From Verif Require Export Model_Interp.

Section convolution.
Context {A : Type} `{Num A} `{Rem A} `{RA : Rounding A}.

(** interpolation.rs:120-125, the inner loop: [j] counts in the number type; [from] is [TT::from] *)
Definition interpolation_sum {P} (zero : P) (add mul : P -> P -> P) (from : A -> P) (h : A -> A) (start : A) (neighbours : list P) : P :=
  fst (foldl (fun '(sum, j) c => (add sum (mul c (from (h j))), (j + n1)%num)) (zero, start) neighbours).

(** interpolation.rs:92-131 interpolate_priv_scalar; [temp] is the content of the target before *)
Definition interpolate_points {P} (zero : P) (add mul : P -> P -> P) (from : A -> P) (h : A -> A) (factor delay : A) (conv_len : nat)
    (s : settings) (sched : list nat) (data temp : list P) : run (list P) :=
  execute_with_range Large s sched temp 1 (fun range n =>
    elem_steps (fun k _ =>
      let center := (nofnat (fst range + k) / factor)%num in
      let rounded := ffloor center in
      z ← unwrapped (to_isize rounded);
      it ← wi_new (length data) (z - Z.of_nat conv_len - 1) (2 * conv_len + 1);
      neighbours ← items (wi_next data) it;
      Done (interpolation_sum zero add mul from h (nopp (nofnat conv_len) - (center - rounded) + delay)%num neighbours)) n).

(** interpolation.rs:158-181 function_to_vector. [InlineVector] is taken as a [Vec] without spare capacity. [of_size(..)] of an even length is complex,
    and so is a vector of [2 * (2 * conv_len + 1)] elements. The fuel is the number of elements plus one. *)
Definition function_to_vector (h : A -> A) (conv_len : nat) (complex_result : bool) (offset delay : A) : run (dvec A) :=
  let step := if complex_result then 2 else 1 in
  let data_len := step * (2 * conv_len + 1) in
  v ← construct (ToGen complex_result Time) (Storage KVec data_len (replicate data_len n0));
  '(_, _, l) ← while_ (data_len + 1) (fun '(i, _, _) => i <? data_len) (fun '(i, j, l) =>
      l ← wr l i (h (j - offset)%num);
      Done (i + step, (j + n1)%num, l)) (0, (nopp (nofnat conv_len - n1) + delay)%num, elems v);
  Done (set_elems v l).

(** interpolation.rs:133-156 function_to_vectors *)
Definition function_to_vectors (h : A -> A) (conv_len : nat) (complex_result : bool) (factor : nat) (delay : A) : run (list (dvec A)) :=
  all_done (map (fun shift => function_to_vector h conv_len complex_result (nofnat shift / nofnat factor)%num delay) (seq 0 factor)).

(** interpolation.rs:293-315 interpolate_priv_simd_step: the loop takes the next element of the vector for every neighbour *)
Definition simd_step {P} (zero : P) (add mul : P -> P -> P) (from : A -> P) (i factor conv_len : nat) (data : list P) (vectors : list (dvec A)) : run P :=
  rounded ← udiv i factor;
  it ← wi_new (length data) (Z.of_nat rounded - Z.of_nat conv_len) (2 * conv_len + 1);
  k ← umod i factor;
  vector ← rd vectors k;
  let step := if is_complex vector then 2 else 1 in
  neighbours ← items (wi_next data) it;
  d ← vdata vector;
  '(sum, _) ← foldl (fun m c => '(sum, j) ← m; x ← rd d j; Done (add sum (mul c (from x)), j + step)) (Done (zero, 0)) neighbours;
  Done sum.

(** interpolation.rs:252-272, the computation of one point in the middle *)
Definition simd_interpolation_point {P} (simd_mul : list A -> list A -> list A) (simd_sum : list A -> P) (r : reg_type)
    (shifts : list (list (list A))) (simd : list (list A)) (left_points simd_len_in_t factor conv_len i : nat) : run P :=
  rounded ← udiv (i + factor - 1) factor;
  end_ ← usub (rounded + conv_len) left_points;
  simd_end ← udiv (end_ + simd_len_in_t - 1) simd_len_in_t;
  simd_shift ← umod end_ simd_len_in_t;
  factor_shift ← umod i factor;
  factor_shift ← umod (factor - factor_shift) factor;
  shifted ← rd shifts (factor_shift * simd_len_in_t + simd_shift);
  from ← usub simd_end (length shifted);
  regs ← slice simd from simd_end;
  Done (simd_sum (foldl (fun sum '(this, other) => reg_bin nadd sum (simd_mul this other)) (splat r n0) (zip regs shifted))).

(** interpolation.rs:191-290 interpolate_priv_simd *)
Definition interpolate_simd {P} (zero : P) (add mul : P -> P -> P) (from : A -> P) (convert : list A -> run (list P)) (back : list P -> list A)
    (simd_mul : list A -> list A -> list A) (simd_sum : list A -> P) (h : A -> A) (factor : nat) (delay : A) (conv_len new_len : nat)
    (r : reg_type) (addr : nat) (s : settings) (sched : list nat) (b : buffer A) (v : dvec A) : run (dvec A * buffer A) :=
  temp ← borrow n0 b new_len;
  let step := if is_complex v then 2 else 1 in
  vectors ← function_to_vectors h conv_len (is_complex v) factor delay;
  copies ← all_done (map (create_shifted_copies r) vectors);
  let shifts := concat copies in
  dest ← slice temp 0 new_len;
  dest ← convert dest;
  first ← rd vectors 0;
  let scalar_len := points first * factor in
  part ← calc_data_alignment_reqs r addr (len v);
  _ ← slice (elems v) 0 (len v);
  left_points ← udiv (p_left part) step;
  '(a, z) ← center_range part;
  center ← slice (elems v) a z;
  simd ← regs_of r (addr + a * elem_size r) center;
  simd_len_in_t ← udiv (reg_len r) step;
  upto ← usub (length dest) scalar_len;
  mid ← slice dest scalar_len upto;
  mid ← execute_with_range Large s sched mid 1 (fun range n =>
    elem_steps (fun k _ => simd_interpolation_point simd_mul simd_sum r shifts simd left_points simd_len_in_t factor conv_len (scalar_len + (fst range + k))) n);
  dest ← splice dest scalar_len mid;
  data ← slice (elems v) 0 (len v);
  data ← convert data;
  dest ← edge_update (length dest) scalar_len scalar_len (fun i _ => simd_step zero add mul from i factor conv_len data vectors) dest;
  temp ← splice temp 0 (back dest);
  let '(st, b') := trade b temp (Model_Vec.data v) in
  Done (set_data (set_valid_len v new_len) st, b').

(** interpolation.rs:413: [1e-6] *)
Definition millionth : A := (n1 / (nofnat 10 * nofnat 10 * nofnat 10 * nofnat 10 * nofnat 10 * nofnat 10))%num.

(** interpolation.rs:443-481 interpolatef, the part without SIMD registers. The real code fills the whole of the borrowed slice. *)
Definition interpolatef_scalar (h : A -> A) (factor delay : A) (conv_len new_len : nat) (s : settings) (sched : list nat) (b : buffer A) (v : dvec A)
    : run (dvec A * buffer A) :=
  temp ← borrow n0 b new_len;
  data ← slice (elems v) 0 (len v);
  if is_complex v then
    dest ← slice temp 0 new_len;
    dest ← as_complex dest;
    data ← as_complex data;
    dest ← interpolate_points (n0, n0) cadd cmul (fun x => (x, n0)) h factor delay conv_len s sched data dest;
    temp ← splice temp 0 (complex_to_array dest);
    let '(st, b') := trade b temp (Model_Vec.data v) in
    Done (set_data (set_valid_len v new_len) st, b')
  else
    temp ← interpolate_points n0 nadd nmul (fun x => x) h factor delay conv_len s sched data temp;
    let '(st, b') := trade b temp (Model_Vec.data v) in
    Done (set_data (set_valid_len v new_len) st, b').
(** interpolation.rs:387-482 interpolatef. A division of the delay by the delta, and two algorithms. *)
Definition interpolatef (h : response A A) (factor delay : A) (conv_len : nat) (r : reg_type) (addr : nat) (s : settings) (sched : list nat)
    (b : buffer A) (v : dvec A) : run (dvec A * buffer A) :=
  let delay := (delay / delta v)%num in
  let points_half := points v / 2 in
  let conv_len := if points_half <? conv_len then points_half else conv_len in
  new_len ← unwrapped (to_usize (fround (nofnat (len v) * factor)%num));
  let new_len := new_len + new_len mod 2 in
  if (conv_len <=? 202) && (10 * (10 * (10 * 2)) <=? new_len) && nltb (fabs (fround factor - factor)%num) millionth then
    k ← unwrapped (to_usize (fround factor));
    if is_complex v then
      interpolate_simd (n0, n0) cadd cmul (fun x => (x, n0)) as_complex complex_to_array (reg_cbin cmul) reg_sum_complex
        (r_calc h) k delay conv_len new_len r addr s sched b v
    else
      interpolate_simd n0 nadd nmul (fun x => x) as_reals (fun x => x) (reg_bin nmul) reg_sum_real (r_calc h) k delay conv_len new_len r addr s sched b v
  else interpolatef_scalar (r_calc h) factor delay conv_len new_len s sched b v.
End convolution.

Section spectrum.
Context {A : Type} `{Num A} `{Flt A} `{Rem A} `{Trig A} `{F : Fft A}.

(** interpolation.rs:319-339 apply_linear_phase. Both halves are vectors which borrow a part of the data; their delta is 1. *)
Definition on_range (v : dvec A) (a z : nat) (f : dvec A -> run (dvec A)) : run (dvec A) :=
  d ← vdata v;
  d ← slice d a z;
  freq ← construct ToComplexFreq (Storage KSliceMut (length d) d);
  freq ← f freq;
  l ← splice (elems v) a (elems freq);
  Done (set_elems v l).
(** interpolation.rs:319-339 *)
Definition apply_linear_phase (s : settings) (sched sched' : list nat) (delay : A) (v : dvec A) : run (dvec A) :=
  let points := len v / 2 in
  let pos_points := points / 2 in
  neg_points ← usub points pos_points;
  let phase_inc := ((n1 + n1) * fpi * delay / nofnat points)%num in
  v ← on_range v (2 * pos_points) (len v) (multiply_complex_exponential s sched phase_inc (nopp (nofnat neg_points) * phase_inc)%num);
  on_range v 0 (2 * pos_points) (multiply_complex_exponential s sched' phase_inc n0).

(** interpolation.rs:341-362 interpolate_upsample *)
Definition interpolate_upsample (r : reg_type) (addr : nat) (s : settings) (sched : list nat) (function : option (response A A)) (factor : A) (v : dvec A)
    : run (dvec A) :=
  match function with
  | None => scale_real r addr s sched factor v
  | Some h => on_points (multiply_function_points cmul (r_symmetric h) true factor (factor, n0) (fun x => (r_calc h x, n0)) s sched) v
  end.

(** interpolation.rs:364-376 interpolate_downsample: [expect] on the result of [resize] *)
Definition interpolate_downsample (r : reg_type) (addr : nat) (s : settings) (sched : list nat) (dest_points : nat) (v : dvec A) : run (dvec A) :=
  let orig_len := len v in
  let neg_points := dest_points / 2 in
  let pos_points := dest_points - neg_points in
  a ← usub orig_len (2 * neg_points);
  l ← memcpy (elems v) a orig_len (2 * pos_points);
  match Model_Vec.resize n0 (set_elems v l) (2 * (neg_points + pos_points)) with
  | (v, Ok _) => scale_real r addr s sched (nofnat (2 * (neg_points + pos_points)) / nofnat orig_len)%num v
  | _ => Panicked
  end.

(** The schedulers which the steps of an interpolation are run with *)
(** No code: interpolation.rs:542-605 passes the settings of [self]. *)
Record schedules := Schedules { sch_neg : list nat; sch_pos : list nat; sch_mul : list nat; sch_scale : list nat }.

(** The vector which borrows the data of [self] up to [l] elements: [self.data_mut(0..l).to_complex_time_vec()] *)
(** interpolation.rs:542-605 *)
Definition borrowed (v : dvec A) (l : nat) : run (dvec A) :=
  d ← vdata v;
  d ← slice d 0 l;
  construct ToComplexTime (Storage KSliceMut (length d) d).

(** interpolation.rs:542-605 interpolate. [sc] are the settings of the vector which borrows the data of [self]. A real vector is complex in between,
    although its number space says that it is real. *)
Definition interpolate (r : reg_type) (addr : nat) (s sc : settings) (sch : schedules) (b : buffer A) (v : dvec A)
    (function : option (response A A)) (dest_points : nat) (delay : A) : run (dvec A * buffer A * result unit) :=
  if match function with Some h => negb (r_symmetric h) && negb (is_complex v) | None => false end
  then Done (v, b, Err ArgumentFunctionMustBeSymmetric)
  else
    let delta_t := delta v in
    let orig_is_complex := is_complex v in
    let orig_len := len v in
    let dest_len := if orig_is_complex then 2 * dest_points else dest_points in
    let factor := (nofnat dest_points / nofnat (points v))%num in
    '(v, b) ← (if negb orig_is_complex then zero_interleave_b n0 b v 2 else Done (v, b));
    let complex_orig_len := len v in
    let complex_dest_len := 2 * dest_points in
    let max_len := Nat.max complex_orig_len complex_dest_len in
    '(v, b, res) ← resize_b n0 b v max_len;
    match res with
    | Err e => Done (v, b, Err e)
    | Ok _ =>
        complex ← borrowed v max_len;
        match Model_Vec.resize n0 complex complex_orig_len with
        | (complex, Ok _) =>
            '(complex, _) ← plain_fft (no_trade b) complex;
            complex ← (if feqb delay n0 then Done complex else apply_linear_phase sc (sch_neg sch) (sch_pos sch) (delay / delta_t)%num complex);
            '(complex, res) ← (if orig_len <? dest_len then
                  '(complex, res) ← zero_pad n0 complex dest_points Center;
                  match res with
                  | Err e => Done (complex, Err e)
                  | Ok _ => complex ← interpolate_upsample r addr sc (sch_mul sch) function factor complex; Done (complex, Ok tt)
                  end
                else if dest_len <? orig_len then
                  complex ← interpolate_downsample r addr sc (sch_mul sch) dest_points complex; Done (complex, Ok tt)
                else Done (complex, Ok tt));
            match res with
            | Err e => l ← splice (elems v) 0 (elems complex); Done (set_elems v l, b, Err e)
            | Ok _ =>
                '(complex, _) ← plain_ifft (no_trade b) complex;
                l ← splice (elems v) 0 (elems complex);
                match Model_Vec.resize n0 (set_elems v l) complex_dest_len with
                | (v, Ok _) =>
                    v ← scale_real r addr s (sch_scale sch) (n1 / nofnat dest_points)%num v;
                    let v := set_delta v (delta_t / factor)%num in
                    if negb orig_is_complex then v ← pure_complex_to_real_operation_inplace fst v; Done (v, b, Ok tt) else Done (v, b, Ok tt)
                | _ => Panicked
                end
            end
        | _ => Panicked
        end
    end.

(** interpolation.rs:534-540 interpft: [expect] on the result *)
Definition interpft (r : reg_type) (addr : nat) (s sc : settings) (sch : schedules) (b : buffer A) (v : dvec A) (dest_points : nat) : run (dvec A * buffer A) :=
  '(v, b, res) ← interpolate r addr s sc sch b v None dest_points n0;
  match res with Ok _ => Done (v, b) | Err _ => Panicked end.

(** interpolation.rs:484-532 interpolatei *)
Definition interpolatei (r : reg_type) (addr : nat) (s sc : settings) (sch : schedules) (b : buffer A) (v : dvec A) (h : response A A) (factor : nat)
    : run (dvec A * buffer A * result unit) :=
  if factor <=? 1 then Done (v, b, Ok tt)
  else if negb (r_symmetric h) && negb (is_complex v) then Done (v, b, Err ArgumentFunctionMustBeSymmetric)
  else
    let orig_is_complex := is_complex v in
    '(v, b) ← (if negb orig_is_complex then zero_interleave_b n0 b v (factor * 2) else zero_interleave_b n0 b v factor);
    let l := len v in
    complex ← borrowed v l;
    '(complex, _) ← plain_fft (no_trade b) complex;
    let factorf := nofnat factor in
    complex ← on_points (multiply_function_points cmul (r_symmetric h) true factorf (factorf, n0) (fun x => (r_calc h x, n0)) sc (sch_mul sch)) complex;
    '(complex, _) ← plain_ifft (no_trade b) complex;
    e ← splice (elems v) 0 (elems complex);
    v ← scale_real r addr s (sch_scale sch) (n1 / nofnat (l / 2))%num (set_elems v e);
    if negb orig_is_complex then v ← pure_complex_to_real_operation_inplace fst v; Done (v, b, Ok tt) else Done (v, b, Ok tt).
End spectrum.
