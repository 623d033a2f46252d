(** Model of vector/src/vector_types/general/diff_sum.rs. No proofs here. *)
From Verif Require Export Model_Elem.

(** diff_sum.rs:73-76, 78-80: the loop of [diff] on one array *)
Definition diff_loop {P} (sub : P -> P -> P) (n : nat) (d : list P) : run (list P) :=
  loop n 0 (fun j d => y ← rd d (j + 1); x ← rd d j; wr d j (sub y x)) d.

(** diff_sum.rs:65-82; for a complex vector the whole storage is reinterpreted. [valid_len -= step] and [len / 2 - 1] underflow on an
    empty vector. *)
Definition diff {A} `{Num A} (v : dvec A) : run (dvec A) :=
  let len := len v in
  if is_complex v then
    vl ← usub len 2;
    d ← array_to_complex (elems v);
    n ← usub (len / 2) 1;
    d ← diff_loop csub n d;
    Done (set_valid_len (set_elems v (complex_to_array d)) vl)
  else
    vl ← usub len 1;
    d ← diff_loop nsub (len - 1) (elems v);
    Done (set_valid_len (set_elems v d) vl).

(** diff_sum.rs:95-100, 102-107: [for n in &mut data[1..len]] with the previous value in [temp] *)
Definition diff_start_loop {P} (sub : P -> P -> P) (n : nat) (d : list P) : run (list P) :=
  temp ← rd d 0;
  s ← slice d 1 n;
  r ← loop (length s) 1 (fun j '(d, temp) => x ← rd d j; d ← wr d j (sub x temp); Done (d, x)) (d, temp);
  Done (fst r).

(** diff_sum.rs:84-109 *)
Definition diff_with_start {A} `{Num A} (v : dvec A) : run (dvec A) :=
  let len := len v in
  if len =? 0 then Done v
  else if is_complex v then
    d ← array_to_complex (elems v);
    d ← diff_start_loop csub (len / 2) d;
    Done (set_elems v (complex_to_array d))
  else
    d ← diff_start_loop nsub len (elems v);
    Done (set_elems v d).

(** diff_sum.rs:111-122: the loop runs for j from the step size to the length, [i] is [j - step] *)
Definition cum_sum {A} `{Num A} (v : dvec A) : run (dvec A) :=
  let step := if is_complex v then 2 else 1 in
  d ← loop (len v - step) step (fun j d => y ← rd d j; x ← rd d (j - step); wr d j (y + x)%num) (elems v);
  Done (set_elems v d).
