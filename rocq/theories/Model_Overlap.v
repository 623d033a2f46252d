(** Model of [convolve_signal] and [convolve]: vector/src/vector_types/time_freq/convolution.rs. No proofs here. *)
From Verif Require Export Model_Fft.

(** convolution.rs:270-282; [n & (n - 1)] is not evaluated for zero. A shift by one halves. *)
Definition next_power_of_two (value : nat) : run nat :=
  if negb (value =? 0) && (Nat.land value (value - 1) =? 0) then Done value
  else
    '(_, count) ← while_ (value + 1) (fun '(n, _) => negb (n =? 0)) (fun '(n, count) => Done (n / 2, count + 1)) (value, 0);
    Done (2 ^ count).

Section overlap.
Context {A : Type} `{Num A} `{Flt A} `{Rem A} `{Trig A} `{F : Fft A}.
Local Notation C := (A * A)%type.

(** [n * v / scaling] with a real [scaling]: convolution.rs:427-429, 444-446 *)
Definition scaled_product (scaling : A) (n v : C) : C := let p := cmul n v in (fst p / scaling, snd p / scaling)%num.

(** convolution.rs:376-385, 386-397: the target points [0..count] of [l] become the convolution at [position], [position + 1], ...; [position] has the
    type [isize] *)
Definition scalar_part (signal filter : list C) (imp_len count position : nat) (l : list C) : run (list C) :=
  loop count 0 (fun i l => x ← convolve_iteration (n0, n0) cadd cmul signal filter (position + i) ((imp_len + 1) / 2) imp_len; wr l i x) l.

(** convolution.rs:419-432, the body of the loop, which is also the first iteration (403-415) up to the copies: [before] and [after] are done before and
    after the transform. rustfft overwrites all of the output, and leaves [fft_rest] in the input. Returns the signal, the overlap buffer and [tmp]. *)
Definition overlap_block (fft_len step_size : nat) (scaling : A) (filter : list C) (position : nat)
    (before after : list C -> run (list C)) (signal : list C) : run (list C * list C * list C) :=
  signal ← before signal;
  overlap_buffer ← slice signal (position + step_size) (position + fft_len);
  block ← slice signal position (fft_len + position);
  signal ← splice signal position (fft_rest block);
  signal ← after signal;
  let signal_freq := zip_with (scaled_product scaling) (fft_forward block) filter in
  Done (signal, overlap_buffer, fft_inverse signal_freq).

(** convolution.rs:304-461, without GPU support; the checks of the first lines are repeated in [convolve_signal]. The scratch space of rustfft and what is
    left in the borrowed buffer are not modelled. [scratch_len] is the larger one of the two scratch lengths, times two. *)
Definition overlap_discard (b : buffer A) (v o : dvec A) (fft_len : nat) : run (dvec A * buffer A * result unit) :=
  if negb (is_complex v) then Done (v, b, Err InputMustBeComplex)
  else if meta_disagree v o then Done (v, b, Err InputMetaDataMustAgree)
  else
    let imp_len := points o in
    let x_len := points v in
    overlap ← usub imp_len 1;
    min_fft_len ← next_power_of_two (4 * overlap);
    let fft_len := if min_fft_len <? fft_len then fft_len else min_fft_len in
    step_size ← usub fft_len overlap;
    let scratch_len := 2 * Nat.max (fft_inplace_scratch_len fft_len) (fft_outofplace_scratch_len fft_len) in
    x_mod ← umod x_len fft_len;
    remainder_len ← usub x_len x_mod;
    array ← borrow n0 b (2 * fft_len + scratch_len + 2 * fft_len + 2 * fft_len + remainder_len);
    tmp ← slice array (scratch_len + 2 * fft_len) (scratch_len + 2 * fft_len + 2 * fft_len);
    padded ← slice array (scratch_len + 2 * fft_len + 2 * fft_len) (scratch_len + 2 * fft_len + 2 * fft_len + 2 * fft_len);
    end_ ← slice array (scratch_len + 2 * fft_len + 2 * fft_len + 2 * fft_len) (scratch_len + 2 * fft_len + 2 * fft_len + 2 * fft_len + remainder_len);
    src ← slice (elems o) 0 (2 * imp_len);
    padded ← copy_into padded 0 (2 * imp_len) src;
    w ← construct ToComplexTime (Storage KSliceMut (length padded) padded);
    match Model_Vec.resize n0 w (2 * imp_len) with
    | (_, Err _) => Panicked
    | (w, Ok _) =>
        '(w, res) ← zero_pad n0 w fft_len End;
        match res with
        | Err _ => Panicked
        | Ok _ =>
            filter ← array_to_complex (elems o);
            padded ← slice (elems w) 0 (2 * fft_len);
            padded ← array_to_complex padded;
            signal ← slice (elems v) 0 (2 * x_len);
            signal ← array_to_complex signal;
            tmp ← array_to_complex tmp;
            end_ ← array_to_complex end_;
            let padded := fft_forward padded in
            tmp ← scalar_part signal filter imp_len (imp_len / 2) 0 tmp;
            position ← usub (length signal) (length end_);
            end_ ← scalar_part signal filter imp_len (remainder_len / 2) position end_;
            let scaling := nofnat fft_len in
            '(signal, overlap_buffer, tmp) ← overlap_block fft_len step_size scaling padded 0 (fun signal => Done signal)
                (fun signal => src ← slice tmp 0 (imp_len / 2); copy_into signal 0 (imp_len / 2) src) signal;
            '(position, signal, _, tmp) ← while_ (x_len + 1) (fun '(position, _, _, _) => position + fft_len <? x_len)
                (fun '(position, signal, overlap_buffer, tmp) =>
                   '(signal, overlap_buffer, tmp) ← overlap_block fft_len step_size scaling padded position
                     (fun signal => copy_into signal position (position + overlap) overlap_buffer)
                     (fun signal =>
                        src ← slice tmp (imp_len - 1) fft_len;
                        from ← usub position step_size;
                        copy_into signal (from + imp_len / 2) (position + imp_len / 2) src) signal;
                   Done (position + step_size, signal, overlap_buffer, tmp)) (step_size, signal, overlap_buffer, tmp);
            src ← slice tmp (imp_len - 1) fft_len;
            from ← usub position step_size;
            signal ← copy_into signal (from + imp_len / 2) (position + imp_len / 2) src;
            tail_start ← usub x_len (remainder_len / 2);
            signal ← copy_into signal tail_start (length signal) end_;
            l ← splice (elems v) 0 (complex_to_array signal);
            Done (set_elems v l, give_back b array, Ok tt)
        end
    end.

(** convolution.rs:477-542, without GPU support ([has_gpu_support] is false) *)
Definition convolve_signal (r : reg_type) (addr : nat) (s : settings) (sched : list nat) (b : buffer A) (v o : dvec A) :
    run (dvec A * buffer A * result unit) :=
  if meta_disagree v o then Done (v, b, Err InputMetaDataMustAgree)
  else if negb (ddomain_eqb (vdomain v) Time) then Done (v, b, Err InputMustBeInTimeDomain)
  else if points v <? points o then Done (v, b, Err InvalidArgumentLength)
  else if (1000 <? len v) && (len o <=? 202) && (11 <? len o) then
    '(v, b) ← convolve_signal_simd r addr s sched b v o;
    Done (v, b, Ok tt)
  else if (100 * 100 <? len v) && (15 <? len o) && (10 * len o <? len v) && is_complex v then
    fft_len ← next_power_of_two (len o);
    overlap_discard b v o fft_len
  else
    '(v, b) ← convolve_signal_scalar s sched b v o;
    Done (v, b, Ok tt).

(** ** Convolution with a function *)

(** convolution.rs:104-110; [x.abs() < 1e-6] and 0.5 as fractions. [round] of the number type is a parameter. *)
Definition would_benefit_from_simd (round : A -> A) (vec_len imp_len : nat) (ratio : A) : bool :=
  let ratio_inv := (n1 / ratio)%num in
  (imp_len <=? 202) && (2 * 1000 <? vec_len) &&
  nltb (fabs (round ratio_inv - ratio_inv)%num) (n1 / (nofnat 10 * nofnat 10 * nofnat 10 * nofnat 10 * nofnat 10 * nofnat 10))%num &&
  nltb (n1 / nofnat 2)%num ratio.

(** convolution.rs:116-124; [to_usize] is [ratio.abs().round().to_usize()], which is nothing for NaN and for too large numbers *)
Definition calc_points (to_usize : A -> option nat) (imp_len : nat) (ratio : A) (is_complex : bool) : run nat :=
  match to_usize ratio with
  | None => Panicked
  | Some ratio_usize => Done ((if is_complex then 2 else 1) * (2 * imp_len + 1) * ratio_usize)
  end.

(** convolution.rs:136-192. [fits] is [can_use_simd] (always true with the std feature); [addr] is the address of the vector. *)
Definition convolve_real_response (round : A -> A) (to_usize : A -> option nat) (fits : nat -> bool) (f : A -> A) (ratio : A) (imp_len : nat)
    (r : reg_type) (addr : nat) (s : settings) (sched : list nat) (b : buffer A) (v : dvec A) : run (dvec A * buffer A) :=
  if negb (ddomain_eqb (vdomain v) Time) then Done (mark_vector_as_invalid v, b)
  else
    let ratio_inv := (n1 / ratio)%num in
    pts ← calc_points to_usize imp_len ratio (is_complex v);
    if would_benefit_from_simd round (len v) imp_len ratio && fits pts then
      '(_, _, l) ← while_ (pts + 1) (fun '(i, _, _) => i <? pts) (fun '(i, j, l) =>
          l ← wr l i (f (j * ratio_inv)%num);
          Done (i + 2, (j + n1)%num, l)) (0, nopp (nofnat imp_len), replicate pts n0);
      '(v, b, res) ← convolve_signal r addr s sched b v (DVec (Storage KVec pts l) (delta v) (domain v) (number_space v) pts);
      match res with Ok _ => Done (v, b) | Err _ => Panicked end
    else if is_complex v then convolve_function_complex (fun x => (f x, n0)) ratio imp_len b v
    else convolve_function_real f ratio imp_len b v.

(** convolution.rs:205-254. [data_mut(i)] cuts the storage to the valid length first. *)
Definition convolve_complex_response (round : A -> A) (to_usize : A -> option nat) (fits : nat -> bool) (f : A -> C) (ratio : A) (imp_len : nat)
    (r : reg_type) (addr : nat) (s : settings) (sched : list nat) (b : buffer A) (v : dvec A) : run (dvec A * buffer A) :=
  if negb (is_complex v) then Done (mark_vector_as_invalid v, b)
  else if negb (ddomain_eqb (vdomain v) Time) then Done (mark_vector_as_invalid v, b)
  else
    let ratio_inv := (n1 / ratio)%num in
    pts ← calc_points to_usize imp_len ratio (is_complex v);
    if would_benefit_from_simd round (len v) imp_len ratio && fits pts then
      let imp_resp := DVec (Storage KVec (2 * pts) (replicate (2 * pts) n0)) (delta v) (domain v) (number_space v) (valid_len v) in
      '(_, _, l) ← while_ (len imp_resp + 1) (fun '(i, _, _) => i <? len imp_resp) (fun '(i, j, l) =>
          let value := f (j * ratio_inv)%num in
          _ ← slice l 0 (len imp_resp);
          l ← wr l i (fst value);
          _ ← slice l 0 (len imp_resp);
          l ← wr l (i + 2) (snd value);
          Done (i + 3, (j + n1)%num, l)) (0, nopp (nofnat imp_len), elems imp_resp);
      '(v, b, res) ← convolve_signal r addr s sched b v (set_elems imp_resp l);
      match res with Ok _ => Done (v, b) | Err _ => Panicked end
    else convolve_function_complex f ratio imp_len b v.
End overlap.
