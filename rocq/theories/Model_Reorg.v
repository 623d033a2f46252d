(** Model of vector/src/vector_types/general/data_reorganization.rs and swap_array_halves. No proofs here. *)
From Verif Require Export Model_Vec.

(** Runs [f] on [&mut data[0..len]] seen as real numbers. *)
(** data_reorganization.rs:237-247 (real branch), vector_types/mod.rs:510-524 *)
Definition on_valid_real {A} (v : dvec A) (f : list A -> run (list A)) : run (dvec A) :=
  d ← slice (elems v) 0 (len v);
  d' ← f d;
  l ← splice (elems v) 0 d';
  Done (set_elems v l).

(** Runs [f] on [array_to_complex_mut(&mut data[0..len])]. *)
(** data_reorganization.rs:237-247 (complex branch), vector_types/mod.rs:510-524 *)
Definition on_valid_complex {A} (v : dvec A) (f : list (A * A) -> run (list (A * A))) : run (dvec A) :=
  d ← slice (elems v) 0 (len v);
  c ← array_to_complex d;
  c' ← f c;
  l ← splice (elems v) 0 (complex_to_array c');
  Done (set_elems v l).

(** [mem::swap(&mut data[i], &mut data[j])] *)
(** vector_types/mod.rs:171-191, data_reorganization.rs:217-228 *)
Definition swap_elems {A} (d : list A) (i j : nat) : run (list A) :=
  x ← rd d i;
  y ← rd d j;
  d ← wr d i y;
  wr d j x.

(** data_reorganization.rs:217-228 reverse_array. [lo] is [data[0..(len+1)/2]], [up] the rest, reversed; the zip stops with the
    shorter one, that is after [len - (len+1)/2] pairs: element [i] of [lo] is paired with [data[len - 1 - i]]. *)
Definition reverse_array {A} (d : list A) : run (list A) :=
  let n := length d in
  let mid := (n + 1) / 2 in
  loop (Nat.min mid (n - mid)) 0 (fun i d =>
    n1 ← usub n 1; j ← usub n1 i; swap_elems d i j) d.

(** data_reorganization.rs:237-247 *)
Definition vreverse {A} (v : dvec A) : run (dvec A) :=
  if is_complex v then on_valid_complex v reverse_array else on_valid_real v reverse_array.

(** mod.rs:165-191 swap_array_halves. State of the odd branch: the data, [temp] and [pos]. *)
Definition swap_array_halves {A} (d : list A) (forward : bool) : run (list A) :=
  let n := length d in
  if Nat.even n then
    loop (n / 2) 0 (fun i d => swap_elems d i (n / 2 + i)) d
  else
    let step := if forward then n / 2 else n / 2 + 1 in
    temp ← rd d 0;
    r ← loop n 0 (fun _ '(d, temp, pos) =>
           let pos_new := (pos + step) mod n in
           x ← rd d pos;
           d ← wr d pos temp;
           Done (d, x, pos_new)) (d, temp, step);
    Done (fst (fst r)).

(** mod.rs:510-524 *)
Definition swap_halves_priv {A} (v : dvec A) (forward : bool) : run (dvec A) :=
  if len v =? 0 then Done v
  else if is_complex v then on_valid_complex v (fun d => swap_array_halves d forward)
  else on_valid_real v (fun d => swap_array_halves d forward).

(** data_reorganization.rs:249, freq.rs:85-91 *)
Definition swap_halves {A} (v : dvec A) : run (dvec A) := swap_halves_priv v true.
(** freq.rs:85-87 *)
Definition fft_shift {A} (v : dvec A) : run (dvec A) := swap_halves_priv v true.
(** freq.rs:89-91 *)
Definition ifft_shift {A} (v : dvec A) : run (dvec A) := swap_halves_priv v false.

(** PaddingOption: data_reorganization.rs:46-54 *)
Inductive padding := End | Surround | Center.

(** data_reorganization.rs:310-360. The result is paired with the vector because the vector may have been resized. *)
Definition zero_pad {A} (zero : A) (v : dvec A) (pts : nat) (o : padding) : run (dvec A * result unit) :=
  let len_before := len v in
  let c := is_complex v in
  let step := if c then 2 else 1 in
  let l := pts * step in
  if l <=? len_before then Done (v, Err InvalidArgumentLength)
  else match resize zero v l with
  | (v', Err e) => Done (v', Err e)
  | (v', Ok _) =>
      let d := elems v' in
      d' ← match o with
           | End => memzero zero d len_before l
           | Surround =>
               t ← usub l len_before;
               let diff := t / step in
               t ← usub diff 1;
               let right := t / 2 in
               left ← usub diff right;
               let right := if c then right * 2 else right in
               let left := if c then left * 2 else left in
               d ← memcpy d 0 len_before left;
               d ← (if 0 <? right then s ← usub l right; memzero zero d s l else Done d);
               memzero zero d 0 left
           | Center =>
               let points_before := len_before / step in
               let right := points_before / 2 in
               left ← usub points_before right;
               let right := if c then right * 2 else right in
               let left := if c then left * 2 else left in
               d ← (if 0 <? right then t ← usub l right; memcpy d left (left + right) t else Done d);
               t ← usub l right;
               memzero zero d left t
           end;
      Done (set_elems v' d', Ok tt)
  end.

(** data_reorganization.rs:362-397. [factor] is an [u32]; the conversion to [usize] is exact.
    The complex branch reinterprets the *whole* storage as complex numbers. *)
Definition zero_interleave {A} (zero : A) (v : dvec A) (factor : nat) : run (dvec A * result unit) :=
  let len_before := len v in
  let l := len_before * factor in
  if l <? len_before then Done (v, Ok tt)
  else match resize zero v l with
  | (v', Err e) => Done (v', Err e)
  | (v', Ok _) =>
      if is_complex v then
        d ← array_to_complex (elems v');
        d ← loop (l / 2) 0 (fun j d =>
              t ← usub (l / 2) 1; i ← usub t j;
              r ← umod i factor;
              if r =? 0 then q ← udiv i factor; x ← rd d q; wr d i x
              else wr d i (zero, zero)) d;
        Done (set_elems v' (complex_to_array d), Ok tt)
      else
        d ← loop l 0 (fun j d =>
              t ← usub l 1; i ← usub t j;
              r ← umod i factor;
              if r =? 0 then q ← udiv i factor; x ← rd d q; wr d i x
              else wr d i zero) (elems v');
        Done (set_elems v' d, Ok tt)
  end.

(** data_reorganization.rs:407-463 *)
Definition zero_pad_b {A} (zero : A) (b : buffer A) (v : dvec A) (pts : nat) (o : padding)
  : run (dvec A * buffer A * result unit) :=
  let len_before := len v in
  let c := is_complex v in
  let l := if c then 2 * pts else pts in
  if l <=? len_before then Done (v, b, Err InvalidArgumentLength)
  else
    target ← borrow zero b l;
    let d := elems v in
    target ←
      match o with
      | End =>
          src ← slice d 0 len_before;
          t ← copy_into target 0 len_before src;
          memzero zero t len_before l
      | Surround =>
          t ← usub l len_before;
          let diff := t / (if c then 2 else 1) in
          let right := diff / 2 in
          left ← usub diff right;
          let right := if c then right * 2 else right in
          let left := if c then left * 2 else left in
          src ← slice d 0 len_before;
          t ← copy_into target left (left + len_before) src;
          t ← (if 0 <? right then s ← usub l right; memzero zero t s l else Done t);
          memzero zero t 0 left
      | Center =>
          let points_before := len_before / (if c then 2 else 1) in
          let right := points_before / 2 in
          left ← usub points_before right;
          let right := if c then right * 2 else right in
          let left := if c then left * 2 else left in
          s ← usub l right;
          s' ← usub len_before right;
          src ← slice d s' len_before;
          t ← copy_into target s l src;
          src ← slice d 0 left;
          t ← copy_into t 0 left src;
          e ← usub l len_before;
          memzero zero t left e
      end;
    let '(s, b') := trade b target (data v) in
    Done (set_valid_len (set_data v s) l, b', Ok tt).

(** data_reorganization.rs:254-301 macro zero_interleave! and 465-474. [Complexity::Small] always gives a single chunk
    (threading.rs:320-325), hence [range.start = 0] and [target] is the whole slice; [&mut target[0]] panics on an empty target;
    [ptr::copy] of [tuple] elements is checked here by [slice] and [copy_into]. The loop
    [while i < target.len()] runs [ceil (new_len / skip)] times. *)
Definition zero_interleave_b {A} (zero : A) (b : buffer A) (v : dvec A) (factor : nat) : run (dvec A * buffer A) :=
  let tuple := if is_complex v then 2 else 1 in
  if factor <=? 1 then Done (v, b)
  else
    let old_len := len v in
    let new_len := factor * old_len in
    target ← borrow zero b new_len;
    source ← slice (elems v) 0 old_len;
    _ ← rd target 0;
    let t := replicate new_len zero in
    let skip := factor * tuple in
    r ← while_ (S (length t)) (fun '(t, i, j) => i <? length t) (fun '(t, i, j) =>
          x ← slice source j (j + tuple);
          t ← copy_into t i (i + tuple) x;
          Done (t, i + skip, j + tuple)) (t, 0, 0);
    let '(s, b') := trade b (fst (fst r)) (data v) in
    Done (set_valid_len (set_data v s) new_len, b').

(** Resizing the targets one after the other; stops at the first error (data_reorganization.rs:491-493). *)
Fixpoint resize_all {A} (zero : A) (ts : list (dvec A)) (l : nat) : list (dvec A) * result unit :=
  match ts with
  | [] => ([], Ok tt)
  | t :: ts' =>
      match resize zero t l with
      | (t', Err e) => (t' :: ts', Err e)
      | (t', Ok _) => let '(ts'', r) := resize_all zero ts' l in (t' :: ts'', r)
      end
  end.

(** Writing one element into the storage of target number [k]. *)
(** data_reorganization.rs:495-511 *)
Definition wr_target {A} (ts : list (dvec A)) (k pos : nat) (x : A) : run (list (dvec A)) :=
  t ← rd ts k;
  l ← wr (elems t) pos x;
  wr ts k (set_elems t l).

(** data_reorganization.rs:484-512. The real branch runs over the whole storage of [self], not only over its valid part. *)
Definition split_into {A} (zero : A) (v : dvec A) (ts : list (dvec A)) : run (list (dvec A) * result unit) :=
  let num_targets := length ts in
  let data_length := len v in
  if (num_targets =? 0) || negb (data_length mod num_targets =? 0) then Done (ts, Err InvalidArgumentLength)
  else match resize_all zero ts (data_length / num_targets) with
  | (ts', Err e) => Done (ts', Err e)
  | (ts', Ok _) =>
      let d := elems v in
      ts'' ← (if is_complex v then
        loop (data_length / 2) 0 (fun i ts =>
          let k := i mod num_targets in
          let pos := i / num_targets in
          x ← rd d (2 * i);
          ts ← wr_target ts k (2 * pos) x;
          y ← rd d (2 * i + 1);
          wr_target ts k (2 * pos + 1) y) ts'
      else
        loop (length d) 0 (fun i ts =>
          let k := i mod num_targets in
          let pos := i / num_targets in
          x ← rd d i;
          wr_target ts k pos x) ts');
      Done (ts'', Ok tt)
  end.

(** data_reorganization.rs:522-557. The real branch runs over the whole storage of [self]. *)
Definition vmerge {A} (zero : A) (v : dvec A) (sources : list (dvec A)) : run (dvec A * result unit) :=
  let num_sources := length sources in
  match sources with
  | [] => Done (v, Err InvalidArgumentLength)
  | s0 :: rest =>
      if existsb (fun s => negb (len s0 =? len s)) rest then Done (v, Err InvalidArgumentLength)
      else match resize zero v (len s0 * num_sources) with
      | (v', Err e) => Done (v', Err e)
      | (v', Ok _) =>
          d' ← (if is_complex v' then
            loop (len v' / 2) 0 (fun i d =>
              s ← rd sources (i mod num_sources);
              let pos := i / num_sources in
              x ← rd (elems s) (2 * pos);
              d ← wr d (2 * i) x;
              y ← rd (elems s) (2 * pos + 1);
              wr d (2 * i + 1) y) (elems v')
          else
            loop (length (elems v')) 0 (fun i d =>
              s ← rd sources (i mod num_sources);
              let pos := i / num_sources in
              x ← rd (elems s) pos;
              wr d i x) (elems v'));
          Done (set_elems v' d', Ok tt)
      end
  end.
