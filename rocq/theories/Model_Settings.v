(** Model of the settings and of the calibration: vector/src/multicore_support/threading.rs:17-289 and vector_types/support_std_par.rs. No proofs here. *)
From Verif Require Export Model_Vec Model_Real Model_Interp.
From Verif Require Export Model_Chunk.

(** threading.rs:19-26. The duration of the calibration is left out. *)
Record calibration := Calibration {
  c_med_dual : nat; c_med_multi : nat; c_large_dual : nat; c_large_multi : nat;
  c_code : nat;
}.
(** 1_000: the thresholds in threading.rs:122-124, 167-170 are multiples of it *)
Definition thousand : nat := 1000.

(** threading.rs:29-37 *)
Definition limit (value min max : nat) : nat :=
  if value <? min then min else if max <? value then max else value.

Section calibrate.
Context {A : Type} `{Num A} `{Rem A} `{RA : Rounding A}.
(** What the machine does: the nanoseconds which the benchmark takes for a size and a number of threads; whether a number is neither NaN nor infinite;
    the crate linreg; and [2 * x] of two [usize], which wraps around in release builds (debug builds panic when it doesn't fit). *)
Variable elapsed : nat -> nat -> A.
Variable finite : A -> bool.
Variable linear_regression : list A -> list A -> option (A * A).
Variable twice : nat -> nat.

(** threading.rs:39-52. 1000.0 is [nofnat]; the data which is worked on is not used. *)
Definition measure (number_of_cores size : nat) : A + nat :=
  let result := elapsed size number_of_cores in
  if nltb result (nofnat thousand) then inr 1 else inl result.

(** threading.rs:55-68 *)
Definition proportional_regression (x y : list A) : option A :=
  let sum := foldl (fun sum p => (sum + snd p / fst p)%num) n0 (zip x y) in
  let result := (sum / nofnat (length x))%num in
  if finite result then Some result else None.

(** threading.rs:71-73 *)
Definition lines_meet (m1 b1 m2 b2 : A) : option nat := to_usize (fabs (fround ((b2 - b1) / (m1 - m2))%num)).

(** threading.rs:93-108: the loop over the sizes, which ends with the first error *)
Fixpoint measurements (number_of_cores iterations size : nat) : (list A * list A * list A * list A) + nat :=
  match iterations with
  | 0 => inl ([], [], [], [])
  | S iterations =>
      match measure 1 size with
      | inr e => inr e
      | inl one =>
          match measure 2 size with
          | inr e => inr e
          | inl two =>
              match (if 2 <? number_of_cores then measure number_of_cores size else inl two) with
              | inr e => inr e
              | inl max =>
                  match measurements number_of_cores iterations (size + 5 * thousand) with
                  | inr e => inr e
                  | inl (sizes, ones, twos, maxs) => inl (nofnat size :: sizes, one :: ones, two :: twos, max :: maxs)
                  end
              end
          end
      end
  end.

(** threading.rs:84-165. [unwrap] of the proportional regression panics if there is none. *)
Definition attempt_calibrate (number_of_cores : nat) : run (calibration + nat) :=
  if number_of_cores =? 1 then Done (inr 2)
  else match measurements number_of_cores 10 (10 * thousand) with
  | inr e => Done (inr e)
  | inl (sizes, ones, twos, maxs) =>
      match linear_regression sizes twos, linear_regression sizes maxs with
      | Some (t2_m, t2_b), Some (tmax_m, tmax_b) =>
          t1_m ← unwrapped (proportional_regression sizes ones);
          match lines_meet t1_m n0 t2_m t2_b, lines_meet t1_m n0 tmax_m tmax_b with
          | Some dual, Some multi =>
              let dual_core_min := 5 * thousand in
              let dual_core_max := 100 * thousand in
              let multi_core_max := 200 * thousand in
              let med_dual := limit (twice dual) dual_core_min dual_core_max in
              let med_multi := limit (twice multi) (med_dual + 1) multi_core_max in
              let large_dual := limit dual dual_core_min dual_core_max in
              let large_multi := limit multi (large_dual + 1) multi_core_max in
              Done (inl (Calibration med_dual med_multi large_dual large_multi 0))
          | _, _ => Done (inr 4)
          end
      | _, _ => Done (inr 3)
      end
  end.

(** threading.rs:167-188 *)
Definition calibrate (number_of_cores : nat) : run calibration :=
  res ← attempt_calibrate number_of_cores;
  Done (match res with
        | inl c => c
        | inr e => Calibration (50 * thousand) (100 * thousand) (20 * thousand) (30 * thousand) e
        end).
End calibrate.

(** threading.rs:238-258 [MultiCoreSettings::new]; [c] is the result of the calibration, which runs at most once per process ([lazy_static], 190-193) *)
Definition new_settings (c : calibration) (cores : nat) : settings :=
  if cores <=? 1 then Settings 1 (50 * thousand) (100 * thousand) (20 * thousand) (30 * thousand)
  else Settings cores (c_med_dual c) (c_med_multi c) (c_large_dual c) (c_large_multi c).
(** threading.rs:214-217 *)
Definition single_threaded (c : calibration) : settings := new_settings c 1.
(** threading.rs:210-212 *)
Definition default_settings (c : calibration) : settings := single_threaded c.
(** threading.rs:220-231; [number_of_cores] is [num_cpus::get()] *)
Definition parallel (c : calibration) (number_of_cores : nat) : settings :=
  if number_of_cores =? 1 then new_settings c 1
  else if number_of_cores =? 2 then new_settings c 2
  else new_settings c (number_of_cores / 2).

(** support_std_par.rs:84-132: the vector of the constructor without [_par], and the settings it gets. (The vectors of the other models get their settings as an
    argument of each operation; [set_multicore_settings], vec_impl_and_indexers.rs:279-285, replaces them.) *)
Definition construct_par {A} `{Num A} (cal : calibration) (number_of_cores : nat) (c : ctor) (s : storage A) : run (dvec A * settings) :=
  v ← construct c s;
  Done (v, parallel cal number_of_cores).
