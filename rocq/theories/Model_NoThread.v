(** Model of vector/src/multicore_support/no_threading.rs, which replaces threading.rs when the crate is built without the std feature
    (multicore_support/mod.rs:12-20). No proofs here. The functions are given in the same way as in Model_Chunk: [f] tells the steps of the
    closure on a piece of the array. *)
From Verif Require Export Model_Chunk.

(** no_threading.rs:13. The constructors (17-44) ignore their arguments. *)
Record nt_settings := NtSettings {}.
(** no_threading.rs:36-44 *)
Definition nt_with_thresholds (_core_limit _md _mm _ld _lm : nat) : nt_settings := NtSettings.

(** no_threading.rs:53-66 *)
Definition nt_execute_partial {A} (_ : complexity) (_ : nt_settings) (array : list A) (_step_size : nat)
    (f : nat -> nat -> list (step A)) : run (list A) :=
  run_steps (f 0 (length array)) array.

(** no_threading.rs:71-92 *)
Definition nt_execute_with_range {A} (_ : complexity) (_ : nt_settings) (array : list A) (_step_size : nat)
    (f : nat * nat -> nat -> list (step A)) : run (list A) :=
  run_steps (f (0, length array) (length array)) array.

(** no_threading.rs:97-122 *)
Definition nt_map_on_array_chunks {A R} (_ : complexity) (_ : nt_settings) (array : list A) (_step_size : nat)
    (f : list A -> nat * nat -> run R) : run (list R) :=
  r ← f array (0, length array); Done [r].

(** no_threading.rs:271-279. As threading.rs:370-378. *)
Definition nt_calc_chunk_size (array_length step_size number_of_chunks : nat) : run nat :=
  if number_of_chunks =? 0 then Panicked
  else
    let chunk_size := ceil_div array_length number_of_chunks in
    remainder ← umod chunk_size step_size;
    Done (if 0 <? remainder then chunk_size + (step_size - remainder) else chunk_size).

(** no_threading.rs:262-268 *)
Definition nt_partition_mut {A} (array : list A) (step_size number_of_chunks : nat) : run (list (list A)) :=
  n ← nt_calc_chunk_size (length array) step_size number_of_chunks;
  chunks n array.

(** no_threading.rs:132-162. The two pieces which are taken from the iterator are handed to the closure, the array is what was written
    through them and the rest of it. *)
Definition nt_execute_sym_pairs {A} (_ : complexity) (_ : nt_settings) (array : list A) (step_size : nat)
    (f : list A -> nat * nat -> list A -> nat * nat -> run (list A * list A)) : run (list A) :=
  cs ← nt_partition_mut array step_size 2;
  c1 ← rd cs 0;
  c2 ← rd cs 1;
  '(c1', c2') ← f c1 (0, length c1) c2 (length c1, length array);
  Done (c1' ++ c2' ++ concat (drop 2 cs)).

(** no_threading.rs:167-196 *)
Definition nt_get_zipped {A R} (_ : complexity) (_ : nt_settings) (a : list A) (_a_step : nat) (b : list A) (_b_step : nat)
    (f : list A -> nat * nat -> list A -> run R) : run (list R) :=
  match a with
  | [] => Done []
  | _ => r ← f a (0, length a) b; Done [r]
  end.

(** no_threading.rs:201-229 *)
Definition nt_get_chunked_results {A R} (_ : complexity) (_ : nt_settings) (a : list A) (_a_step : nat)
    (f : list A -> nat * nat -> run R) : run (list R) :=
  match a with
  | [] => Done []
  | _ => r ← f a (0, length a); Done [r]
  end.

(** no_threading.rs:235-259 *)
Definition nt_from_src_to_dest {A} (_ : complexity) (_ : nt_settings) (original_length _original_step : nat)
    (target : list A) (_target_step : nat) (f : nat * nat -> nat -> nat -> list (step A)) : run (list A) :=
  run_steps (f (0, original_length) 0 (length target)) target.
