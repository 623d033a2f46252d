(** Model of the functions of interop/src/facade64.rs (facade32.rs is the same code for [f32]) which answer with a number, and of the life of the vectors
    behind the pointers. No proofs here. The functions which give a vector back are in Model_Interop.v. *)
From stdpp Require Import gmap.
From Verif Require Export Model_Interop Model_Index Model_Settings.
From Verif Require Import Model_Chunk.

Section foreign.
Context {A : Type} `{Num A} `{Flt A} `{Rem A} `{Trig A} `{Math A} `{F : Fft A} `{RA : Rounding A} `{IsNan A}.
Context (e : env).

(** ** New vectors *)
(** facade64.rs:45-68. The settings are a field of the vector in the code and an argument of the operations in the model: here they are given back. *)
Definition new_with_performance_options (cal : calibration) (is_complex domain : Z) (init : A) (length : nat) (delta : A) (core_limit : nat) : run (ivec A * settings) :=
  x ← new_vector is_complex domain init length delta; Done (x, new_settings cal core_limit).
(** facade64.rs:71-103 *)
Definition new_with_detailed_performance_options (is_complex domain : Z) (init : A) (length : nat) (delta : A)
    (core_limit med_dual med_multi large_dual large_multi : nat) : run (ivec A * settings) :=
  x ← new_vector is_complex domain init length delta; Done (x, with_thresholds core_limit med_dual med_multi large_dual large_multi).

(** ** What can be read *)
(** facade64.rs:116-122 *)
Definition is_complex_code (x : ivec A) : Z := if is_complex (i_vec x) then 1%Z else 0%Z.
(** facade64.rs:131-136 *)
Definition get_domain (x : ivec A) : Z := match vdomain (i_vec x) with Time => 0%Z | Frequency => 1%Z end.
(** facade64.rs:139-141 *)
Definition get_len (x : ivec A) : nat := len (i_vec x).
(** facade64.rs:149-151 *)
Definition get_points (x : ivec A) : nat := points (i_vec x).
(** facade64.rs:154-156 *)
Definition get_delta (x : ivec A) : A := delta (i_vec x).
(** facade64.rs:159-161: [data(..).as_ptr()]; the elements which the pointer leads to *)
Definition foreign_data (x : ivec A) : run (list A) := data_range (i_vec x) Full.
(** facade64.rs:164-166: [datac(..).as_ptr()] *)
Definition foreign_complex_data (x : ivec A) : run (list (A * A)) := datac_range (i_vec x) Full.
(** facade64.rs:169-171 *)
Definition get_allocated_len (x : ivec A) : nat := alloc_len (i_vec x).

(** ** Numbers *)
(** facade64.rs:236-243, 307-314 *)
Definition foreign_sum (op : summing) (x : ivec A) : run A := vec_sum_op e op 0 (i_vec x).
(** The method: vector statistics.rs:665-671, precise_stats.rs:582-614 *)
Definition vec_complex_sum_op (op : summing) (i : nat) (v : dvec A) : run (A * A) :=
  match op with
  | Sum => vsum_complex (e_reg e) (e_addr e i) (e_set e) (e_sched e i 0) v
  | Sum_sq => vsum_sq_complex (e_reg e) (e_addr e i) (e_set e) (e_sched e i 0) v
  | Sum_prec => vsum_prec_complex (fun x => x) (e_set e) (e_sched e i 0) v
  | Sum_sq_prec => vsum_prec_complex (fun x => cmul x x) (e_set e) (e_sched e i 0) v
  end.
(** facade64.rs:246-253, 317-324 *)
Definition foreign_complex_sum (op : summing) (x : ivec A) : run (A * A) := vec_complex_sum_op op 0 (i_vec x).
(** facade64.rs:224-227, 293-298 *)
Definition foreign_statistics (op : stating) (x : ivec A) : run (statistics A) := vec_stat_op e op 0 (i_vec x).
(** facade64.rs:230-233, 299-304 *)
Definition foreign_complex_statistics (op : stating) (x : ivec A) : run (statistics (A * A)) :=
  match op with
  | Statistics => vstatistics_complex (e_set e) (e_sched e 0 0) (i_vec x)
  | Statistics_prec => vstatistics_prec_complex (e_set e) (e_sched e 0 0) (i_vec x)
  end.
(** facade64.rs:870-889, 913-932: the loop [for i in 0..s.len()] writes the results over the beginning of [data] *)
Definition foreign_complex_split (op : stating) (x : ivec A) (data : list (statistics (A * A))) : run (list (statistics (A * A)) * Z) :=
  res ← match op with
        | Statistics => vstatistics_split_complex (e_set e) (e_sched e 0 0) (i_vec x) (length data)
        | Statistics_prec => vstatistics_split_prec_complex (e_set e) (e_sched e 0 0) (i_vec x) (length data)
        end;
  match res with
  | Ok s => l ← splice data 0 s; Done (l, 0%Z)
  | Err err => Done (data, translate_error err)
  end.
(** facade64.rs:615-631; [R] is the type behind [*const c_void], [null] the pointer 0 *)
Definition foreign_aggregate {R} (null : R) (f : A -> nat -> R) (g : R -> R -> R) (x : ivec A) : run (R * Z) :=
  convert_scalar (map_aggregate f g (e_set e) (e_sched e 0 0)) null x.
(** facade64.rs:634-650 *)
Definition foreign_complex_aggregate {R} (null : R) (f : A * A -> nat -> R) (g : R -> R -> R) (x : ivec A) : run (R * Z) :=
  convert_scalar (map_aggregate_complex f g (e_set e) (e_sched e 0 0)) null x.

(** ** Functions of the client *)
(** interop/src/lib.rs:246-279: [fun_] is the function pointer, [data] what [window_data] leads to *)
Definition foreign_window {D} (fun_ : D -> nat -> nat -> A) (data : D) (is_symmetric : bool) : window A :=
  Window is_symmetric (fun_ data).
(** interop/src/lib.rs:281-325 *)
Definition foreign_real_function {D} (fun_ : D -> A -> A) (data : D) (is_symmetric : bool) : response A A :=
  Response is_symmetric (fun_ data).
(** interop/src/lib.rs:327-379 *)
Definition foreign_complex_function {D} (fun_ : D -> A -> A * A) (data : D) (is_symmetric : bool) : response A (A * A) :=
  Response is_symmetric (fun_ data).

(** ** The vectors behind the pointers *)

(** The requests of a client. The handles are the pointers; [VecBox] and [Box<VecBuf>] arguments are taken: the box is dropped when the function returns, unless the
    function gives it back. [&VecBuf] and the arrays of boxes ([*const Box<VecBuf>], [*mut Box<VecBuf>]) are only used. *)
(** The functions of facade64.rs by how they treat their arguments; the lines are at each case. *)
Inductive request :=
| R_new (is_complex domain : Z) (init : A) (length : nat) (delta : A)        (* 23-42, 45-68, 71-103 *)
| R_delete (h : nat)                                                         (* 18-20 *)
| R_call (h : nat) (refs : list nat) (c : list (ivec A) -> foreign A)        (* the functions of [foreign_call]; the operands are [&VecBuf] or an array of boxes *)
| R_overwrite (h : nat) (data : list A)                                      (* 828-846: the same box is given back *)
| R_clone (h : nat)                                                          (* 688-693: the argument is a [Box] *)
| R_getter (op : getter) (h dst : nat)                                       (* 565-572, 653-660, 668-670: the argument is a [Box] *)
| R_getter2 (op : getter2) (h dst1 dst2 : nat)                               (* 769-784: the argument is a [Box] *)
| R_split_into (h : nat) (targets : list nat)                                (* 805-812 *)
| R_set_value (h index : nat) (value : A) | R_set_len (h n : nat)            (* 111-113, 144-147 *)
| R_read (refs : list nat).                                                  (* the functions which only look: 106-108, 116-171, 194-322, 615-650, 849-932 *)

(** What happens: a new state of the memory and the pointer which is returned, a panic, or undefined behaviour *)
(** The meaning of [Box] and of references in Rust; no lines. *)
Inductive outcome := Served (m : gmap nat (ivec A)) (returned : option nat) | Died | Undefined.
(** Taken boxes, read ones, written ones *)
(** The types of the arguments of the functions named at [request]. *)
Definition uses (q : request) : list nat * list nat * list nat :=
  match q with
  | R_new _ _ _ _ _ => ([], [], [])
  | R_delete h | R_clone h => ([h], [], [])
  | R_call h refs _ => ([h], refs, [])
  | R_overwrite h _ => ([h], [], [])
  | R_getter _ h d => ([h], [], [d])
  | R_getter2 _ h d1 d2 => ([h], [], [d1; d2])
  | R_split_into h ts => ([], [h], ts)
  | R_set_value h _ _ | R_set_len h _ => ([], [], [h])
  | R_read refs => ([], refs, [])
  end.
(** No reference to what is taken or written besides that one *)
(** The rule for [Box] and [&mut] in Rust; no lines. *)
Definition no_alias (q : request) : bool :=
  let '(taken, read, written) := uses q in
  bool_decide (NoDup (taken ++ written)) && forallb (fun h => negb (existsb (Nat.eqb h) (taken ++ written))) read.

(** What is stored at the handles *)
(** Dereferencing the pointers; no lines. *)
Fixpoint fetch (m : gmap nat (ivec A)) (hs : list nat) : option (list (ivec A)) :=
  match hs with
  | [] => Some []
  | h :: hs => match m !! h, fetch m hs with Some x, Some l => Some (x :: l) | _, _ => None end
  end.
(** Writing through [&mut] *)
(** Assignments through the references; no lines. *)
Fixpoint store (m : gmap nat (ivec A)) (hs : list nat) (l : list (ivec A)) : gmap nat (ivec A) :=
  match hs, l with h :: hs, x :: l => store (<[h := x]> m) hs l | _, _ => m end.

(** What a function does with the vectors it takes, reads and writes: the vectors which are written and a vector which is given back *)
(** The functions named at [request]. *)
Definition answer (fits : nat -> bool) (q : request) (taken read written : list (ivec A)) : run (list (ivec A) * option (ivec A)) :=
  match q, taken, read, written with
  | R_new c d init n dt, _, _, _ => x ← new_vector c d init n dt; Done ([], Some x)
  | R_call _ _ c, [x], refs, _ => '(y, _) ← foreign_call e fits (c refs) x; Done ([], Some y)
  | R_overwrite _ data, [x], _, _ => '(y, _) ← overwrite_data x data; Done ([], Some y)
  | R_clone _, [x], _, _ => Done ([], Some (clone_vector x))
  | R_getter op _ _, [x], _, [d] => '(d, _) ← foreign_getter e op x d; Done ([d], None)
  | R_getter2 op _ _ _, [x], _, [d1; d2] => '(d1, d2, _) ← foreign_getter2 op x d1 d2; Done ([d1; d2], None)
  | R_split_into _ _, _, [x], ts => '(ts, _) ← foreign_split_into x ts; Done (ts, None)
  | R_set_value _ i value, _, _, [x] => x ← set_value x i value; Done ([x], None)
  | R_set_len _ n, _, _, [x] => Done ([set_len x n], None)
  | _, _, _, _ => Done ([], None)
  end.
(** One call. [fresh] is the address which the allocator chooses for a new box ([Box::new]: lib.rs:34, 43, 62, 70, facade64.rs:36, 59, 86, 689). *)
Definition serve (fits : nat -> bool) (fresh : nat) (m : gmap nat (ivec A)) (q : request) : outcome :=
  let '(taken, read, written) := uses q in
  if negb (no_alias q) then Undefined
  else match fetch m taken, fetch m read, fetch m written with
  | Some t, Some r, Some w =>
      match answer fits q t r w with
      | Panicked => Died
      | Done (w', y) =>
          let m' := foldr delete (store m written w') taken in
          let at_ := match q with R_overwrite h _ => h | _ => fresh end in
          match y with Some y => Served (<[at_ := y]> m') (Some at_) | None => Served m' None end
      end
  | _, _, _ => Undefined
  end.
End foreign.
Arguments request A : clear implicits.
Arguments outcome A : clear implicits.
