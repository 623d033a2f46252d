(** Model of vector/src/multicore_support/threading.rs. No proofs here. *)
From Verif Require Export Base.

(** multicore_support/mod.rs:23-30 *)
Inductive complexity := Small | Medium | Large.

(** threading.rs:197-206 *)
Record settings := Settings {
  core_limit : nat;
  med_dual_core_threshold : nat;
  med_multi_core_threshold : nat;
  large_dual_core_threshold : nat;
  large_multi_core_threshold : nat;
}.

(** threading.rs:264-279. [MultiCoreSettings::new] (232-258) gives default or calibrated thresholds; both are instances of the
    record above. *)
Definition with_thresholds (cl md mm ld lm : nat) : settings :=
  Settings cl md (Nat.max mm (md + 1)) ld (Nat.max lm (ld + 1)).

(** threading.rs:316-343 *)
Definition determine_number_of_chunks (array_length : nat) (c : complexity) (s : settings) : nat :=
  if core_limit s =? 1 then core_limit s
  else match c with
  | Small => 1
  | Medium =>
      if array_length <? med_dual_core_threshold s then 1
      else if array_length <? med_multi_core_threshold s then 2
      else core_limit s
  | Large =>
      if array_length <? large_dual_core_threshold s then 1
      else if array_length <? large_multi_core_threshold s then 2
      else core_limit s
  end.

(** [(a as f64 / b as f64).ceil() as usize]; that the floating point computation gives the integer ceiling is theorem C17. *)
(** The ceiled division in multicore_support/threading.rs:370-378. *)
Definition ceil_div (a b : nat) : nat := (a + (b - 1)) / b.

(** threading.rs:370-378. With [number_of_chunks = 0] the quotient is infinite or NaN, the chunk size [usize::MAX] or 0, and all
    uses of it panic (see [execute_sym_pairs]; no other caller gets there). *)
Definition calc_chunk_size (array_length step_size number_of_chunks : nat) : run nat :=
  if number_of_chunks =? 0 then Panicked
  else
    let chunk_size := ceil_div array_length number_of_chunks in
    remainder ← umod chunk_size step_size;
    Done (if 0 <? remainder then chunk_size + (step_size - remainder) else chunk_size).

(** [slice.chunks(n)]: pieces of [n] elements, the last one may be shorter; panics for [n = 0] *)
(** Used by threading.rs:349-367 ([array.chunks(chunk_size)]). *)
Fixpoint chunks_fuel {A} (fuel n : nat) (l : list A) : list (list A) :=
  match fuel, l with
  | S fuel', _ :: _ => take n l :: chunks_fuel fuel' n (drop n l)
  | _, _ => []
  end.
(** threading.rs:349-367 ([array.chunks(chunk_size)]) *)
Definition chunks {A} (n : nat) (l : list A) : run (list (list A)) :=
  if n =? 0 then Panicked else Done (chunks_fuel (length l) n l).

(** threading.rs:349-367 partition, partition_mut *)
Definition partition {A} (array : list A) (step_size number_of_chunks : nat) : run (list (list A)) :=
  n ← calc_chunk_size (length array) step_size number_of_chunks;
  chunks n array.

(** threading.rs:383-405 partition_in_ranges. [i < number_of_chunks - 1] can not underflow inside of the loop. *)
Definition partition_in_ranges (array_length step_size number_of_chunks : nat) : run (list (nat * nat)) :=
  chunk_size ← calc_chunk_size array_length step_size number_of_chunks;
  r ← loop number_of_chunks 0 (fun i '(ranges, sum) =>
        let new_sum := if i <? number_of_chunks - 1 then sum + chunk_size else array_length in
        Done (ranges ++ [(sum, new_sum)], new_sum)) ([], 0);
  Done (fst r).

(** ** Threads *)

(** One atomic step of a thread on the piece of the array it owns. *)
Notation step A := (list A -> run (list A)) (only parsing).
(** A thread: its piece of the array and the steps it still has to do. The pieces are disjoint ([chunks_mut]), everything else a
    thread can access is immutable. *)
(** A spawned closure of threading.rs:432-452, 457-493, 498-542, 552-612, 617-666, 671-719, 725-764. *)
Definition task (A : Type) := (list A * list (step A))%type.

(** The body of one spawned closure, same places. *)
Definition run_steps {A} (steps : list (step A)) (c : list A) : run (list A) :=
  foldl (fun m s => m ≫= s) (Done c) steps.

(** Runs the threads that are left one after the other. *)
(** The join at the end of [crossbeam::scope], same places. *)
Fixpoint finish_pool {A} (pool : list (task A)) : run (list (list A)) :=
  match pool with
  | [] => Done []
  | (c, steps) :: pool' => c' ← run_steps steps c; r ← finish_pool pool'; Done (c' :: r)
  end.

(** [crossbeam::scope]: spawns all threads and joins them. The scheduler is an arbitrary list of thread numbers: each entry lets that
    thread do its next step; when the list ends the remaining steps are done thread by thread. Every interleaving of the steps is
    given by some list. A panicking thread makes [scope(..).expect(..)] panic. *)
(** Same places. *)
Fixpoint run_pool {A} (sched : list nat) (pool : list (task A)) : run (list (list A)) :=
  match sched with
  | [] => finish_pool pool
  | k :: sched' =>
      match pool !! k with
      | Some (c, s :: rest) => c' ← s c; run_pool sched' (<[k := (c', rest)]> pool)
      | _ => run_pool sched' pool
      end
  end.

(** Positions at which consecutive pieces start. *)
(** threading.rs:383-405 (the ranges which are passed to the closures) *)
Fixpoint with_offsets {A} (off : nat) (l : list (list A)) : list (nat * list A) :=
  match l with
  | [] => []
  | c :: l' => (off, c) :: with_offsets (off + length c) l'
  end.

(** threading.rs:410-452 execute_partial, execute_on_chunks. [f off n] are the steps of [function] on a piece of [n] elements which
    starts [off] elements behind the start of the array (the position matters for the alignment checks of SIMD code). *)
Definition execute_partial {A} (c : complexity) (s : settings) (sched : list nat) (array : list A) (step_size : nat)
    (f : nat -> nat -> list (step A)) : run (list A) :=
  let n := determine_number_of_chunks (length array) c s in
  if 1 <? n then
    cs ← partition array step_size n;
    r ← run_pool sched (map (fun '(off, c) => (c, f off (length c))) (with_offsets 0 cs));
    Done (concat r)
  else run_steps (f 0 (length array)) array.

(** threading.rs:457-493 execute_with_range. [f (start, end) n] are the steps on a piece of [n] elements. *)
Definition execute_with_range {A} (c : complexity) (s : settings) (sched : list nat) (array : list A) (step_size : nat)
    (f : nat * nat -> nat -> list (step A)) : run (list A) :=
  let n := determine_number_of_chunks (length array) c s in
  if 1 <? n then
    cs ← partition array step_size n;
    ranges ← partition_in_ranges (length array) step_size (length cs);
    r ← run_pool sched (map (fun '(c, rg) => (c, f rg (length c))) (zip cs ranges));
    Done (concat r)
  else run_steps (f (0, length array) (length array)) array.

(** The results of the threads in the order in which they arrive at the mutex: [order] picks the next thread to arrive among
    the ones which are left; every permutation is given by some list. *)
(** threading.rs:498-542, 617-666, 671-719 (the results which are pushed into the list behind the mutex) *)
Fixpoint arrivals {R} (order : list nat) (l : list R) : list R :=
  match order with
  | [] => l
  | k :: order' =>
      match l !! k with
      | Some x => x :: arrivals order' (take k l ++ drop (S k) l)
      | None => arrivals order' l
      end
  end.

(** All threads have to finish without a panic. *)
(** [crossbeam::scope(..).unwrap()], same places. *)
Fixpoint all_done {R} (l : list (run R)) : run (list R) :=
  match l with
  | [] => Done []
  | m :: l' => x ← m; r ← all_done l'; Done (x :: r)
  end.

(** threading.rs:498-542 map_on_array_chunks *)
Definition map_on_array_chunks {A R} (c : complexity) (s : settings) (order : list nat) (array : list A) (step_size : nat)
    (f : list A -> nat * nat -> run R) : run (list R) :=
  let n := determine_number_of_chunks (length array) c s in
  if 1 <? n then
    cs ← partition array step_size n;
    ranges ← partition_in_ranges (length array) step_size (length cs);
    r ← all_done (map (fun '(c, rg) => f c rg) (zip cs ranges));
    Done (arrivals order r)
  else r ← f array (0, length array); Done [r].

(** threading.rs:671-719 get_chunked_results: the same, but no result at all for an empty array *)
Definition get_chunked_results {A R} (c : complexity) (s : settings) (order : list nat) (a : list A) (a_step : nat)
    (f : list A -> nat * nat -> run R) : run (list R) :=
  match a with
  | [] => Done []
  | _ => map_on_array_chunks c s order a a_step f
  end.

(** threading.rs:617-666 get_zipped: [b] is cut in pieces, the ranges are those of [a] *)
Definition get_zipped {A R} (c : complexity) (s : settings) (order : list nat) (a : list A) (a_step : nat) (b : list A) (b_step : nat)
    (f : list A -> nat * nat -> list A -> run R) : run (list R) :=
  match a with
  | [] => Done []
  | _ =>
      let n := determine_number_of_chunks (length a) c s in
      if 1 <? n then
        cs ← partition b b_step n;
        ranges ← partition_in_ranges (length a) a_step (length cs);
        r ← all_done (map (fun '(c, rg) => f a rg c) (zip cs ranges));
        Done (arrivals order r)
      else r ← f a (0, length a) b; Done [r]
  end.

(** threading.rs:725-764 from_src_to_dest. [f (start, end) off n] are the steps on a piece of [n] elements of the target which starts
    [off] elements behind its start; they may read the original. *)
Definition from_src_to_dest {A} (c : complexity) (s : settings) (sched : list nat) (original_length original_step : nat)
    (target : list A) (target_step : nat) (f : nat * nat -> nat -> nat -> list (step A)) : run (list A) :=
  let n := determine_number_of_chunks original_length c s in
  if 1 <? n then
    cs ← partition target target_step n;
    ranges ← partition_in_ranges original_length original_step (length cs);
    r ← run_pool sched (map (fun '((off, c), rg) => (c, f rg off (length c))) (zip (with_offsets 0 cs) ranges));
    Done (concat r)
  else run_steps (f (0, original_length) 0 (length target)) target.

(** threading.rs:552-612 execute_sym_pairs_with_range: [f] maps two pieces (with their ranges) to their new content; a
    pair of pieces is treated as one step. Pieces which find no partner are not touched (the zip ends). *)
Definition execute_sym_pairs {A} (c : complexity) (s : settings) (array : list A) (step_size : nat)
    (f : list A -> nat * nat -> list A -> nat * nat -> run (list A * list A)) : run (list A) :=
  let n := 2 * determine_number_of_chunks (length array) c s in
  if 2 <? n then
    cs ← partition array step_size n;
    ranges ← partition_in_ranges (length array) step_size (length cs);
    let chunks1 := take (n / 2) cs in
    let chunks2 := drop (n / 2) cs in
    let ranges1 := take (n / 2) ranges in
    let ranges2 := drop (n / 2) ranges in
    (* pair j: piece j of chunks1 with piece j of the reversed chunks2 *)
    rs ← all_done (map (fun '((c1, r1), (c2, r2)) => f c1 r1 c2 r2)
           (zip (zip chunks1 ranges1) (zip (rev chunks2) (rev ranges2))));
    let k := length rs in
    let new1 := map fst rs ++ drop k chunks1 in
    let new2 := rev (map snd rs ++ drop k (rev chunks2)) in
    Done (concat new1 ++ concat new2)
  else
    cs ← partition array step_size n;
    c1 ← rd cs 0;
    c2 ← rd cs 1;
    '(c1', c2') ← f c1 (0, length c1) c2 (length c1, length array);
    Done (c1' ++ c2' ++ concat (drop 2 cs)).
