(** C66: the settings which the library makes by itself *)
From Verif Require Import Proof_Base Proof_Settings Nums NumsTrig Model_Chunk.
Local Open Scope nat_scope.

(** Whatever the benchmark measures, whatever comes out of the regression, and whether or not the doubling wraps around: the thresholds are above zero, within
    their bounds, and two cores are used before many. *)
Theorem C66_calibration : forall {A} `{Num A} `{Rem A} `{RA : Rounding A} (elapsed : nat -> nat -> A) finite regress twice cores c,
  calibrate elapsed finite regress twice cores = Done c -> plausible c.
Proof. intros A ? ? ? elapsed finite regress twice cores c. exact (calibrate_plausible elapsed finite regress twice cores c). Qed.
Print Assumptions C66_calibration.
(** Large operations use threads from smaller lengths on. *)
Theorem C66_large_first : forall {A} `{Num A} `{Rem A} `{RA : Rounding A} (elapsed : nat -> nat -> A) finite regress twice cores c,
  (forall n, n <= twice n) -> calibrate elapsed finite regress twice cores = Done c -> c_large_dual c <= c_med_dual c /\ c_large_multi c <= c_med_multi c.
Proof. intros A ? ? ? elapsed finite regress twice cores c. exact (calibrate_larger elapsed finite regress twice cores c). Qed.
Print Assumptions C66_large_first.
(** The calibration panics only if a mean of times is not a number. *)
Theorem C66_no_panic : forall {A} `{Num A} `{Rem A} `{RA : Rounding A} (elapsed : nat -> nat -> A) finite regress twice cores,
  (forall x, finite x = true) -> exists c, calibrate elapsed finite regress twice cores = Done c.
Proof. intros A ? ? ? elapsed finite regress twice cores. exact (calibrate_panics elapsed finite regress twice cores). Qed.
Print Assumptions C66_no_panic.

(** [MultiCoreSettings::new]: the limit is kept, more data never means fewer threads, and an empty slice is never divided. *)
Theorem C66_new : forall c cores, plausible c ->
  ordered (new_settings c cores) /\ core_limit (new_settings c cores) = Nat.max 1 cores /\
  within_limit (new_settings c cores) /\ grows (new_settings c cores) /\ forall co, no_threads_for_nothing co (new_settings c cores).
Proof.
  intros c cores Hc. destruct (new_settings_ordered c cores Hc) as [Ho Hl]. split; [done|]. split; [done|].
  apply ordered_within; [done|]. rewrite Hl. lia.
Qed.
Print Assumptions C66_new.
(** [default()] and [single_threaded()]: a single thread for any length *)
Theorem C66_default : forall c n co, core_limit (default_settings c) = 1 /\ determine_number_of_chunks n co (default_settings c) = 1 /\ default_settings c = single_threaded c.
Proof. intros c n co. split; [reflexivity|]. split; reflexivity. Qed.
Print Assumptions C66_default.
(** [parallel()]: half of the cores, but both of two *)
Theorem C66_parallel : forall c n, plausible c -> 1 <= n ->
  core_limit (parallel c n) = (if n =? 2 then 2 else Nat.max 1 (n / 2)) /\ core_limit (parallel c n) <= n /\
  within_limit (parallel c n) /\ grows (parallel c n) /\ forall co, no_threads_for_nothing co (parallel c n).
Proof.
  intros c n Hc Hn. rewrite parallel_eq. destruct (new_settings_ordered c (if n =? 2 then 2 else n / 2) Hc) as [Ho Hl]. rewrite Hl. split_and!.
  - by destruct (n =? 2).
  - destruct (Nat.eqb_spec n 2); [lia|]. assert (n / 2 <= n) by (apply Nat.div_le_upper_bound; lia). lia.
  - apply ordered_within; [done|]. rewrite Hl. lia.
  - apply ordered_within; [done|]. rewrite Hl. lia.
  - apply ordered_within; [done|]. rewrite Hl. lia.
Qed.
Print Assumptions C66_parallel.
(** Explicit thresholds: the multi core thresholds are raised above the dual core ones. *)
Theorem C66_explicit : forall cl md mm ld lm, 1 <= cl -> 0 < md -> 0 < ld ->
  ordered (with_thresholds cl md mm ld lm) /\ core_limit (with_thresholds cl md mm ld lm) = cl /\
  within_limit (with_thresholds cl md mm ld lm) /\ grows (with_thresholds cl md mm ld lm) /\ forall co, no_threads_for_nothing co (with_thresholds cl md mm ld lm).
Proof.
  intros cl md mm ld lm H1 H2 H3. pose proof (with_thresholds_ordered cl md mm ld lm H2 H3) as Ho. split; [done|]. split; [done|]. by apply ordered_within.
Qed.
Print Assumptions C66_explicit.

(** A vector of a [_par] constructor: it is the vector of the constructor without [_par], and all pointwise operations do the same on it as with the default settings,
    the empty vector included. *)
Theorem C66_par_real : forall {A} `{Num A} cal n c (s : storage A) v st, plausible cal -> construct_par cal n c s = Done (v, st) ->
  construct c s = Done v /\ st = parallel cal n /\
  forall (op : A -> A) co sched l, vdata v = Done l ->
    exists v', pure_real_operation st sched op co v = Done v' /\ pure_real_operation (default_settings cal) [] op co v = Done v'.
Proof.
  intros A ? cal n c s v st Hc E. unfold construct_par in E. apply bind_Done_inv in E as (w & E & E'). injection E' as -> <-. split; [done|]. split; [done|].
  intros op co sched l Hv. apply (same_with_settings_real _ _ _ _ _ _ _ l Hv).
  - rewrite parallel_eq. by apply C66_new.
  - exact (proj2 (proj2 (proj2 (proj2 (C66_new cal 1 Hc)))) co).
Qed.
Print Assumptions C66_par_real.
Theorem C66_par_complex : forall {A} `{Num A} cal n c (s : storage A) v st, plausible cal -> construct_par cal n c s = Done (v, st) ->
  construct c s = Done v /\ st = parallel cal n /\
  forall (op : A * A -> A * A) co sched l, vdata v = Done (complex_to_array l) ->
    exists v', pure_complex_operation st sched op co v = Done v' /\ pure_complex_operation (default_settings cal) [] op co v = Done v'.
Proof.
  intros A ? cal n c s v st Hc E. unfold construct_par in E. apply bind_Done_inv in E as (w & E & E'). injection E' as -> <-. split; [done|]. split; [done|].
  intros op co sched l Hv. apply (same_with_settings_complex _ _ _ _ _ _ _ l Hv).
  - rewrite parallel_eq. by apply C66_new.
  - exact (proj2 (proj2 (proj2 (proj2 (C66_new cal 1 Hc)))) co).
Qed.
Print Assumptions C66_par_complex.

(** What deviates.
    Three cores: [parallel()] gives the settings for a single one, although two cores are both used. *)
Theorem C66_three_cores_refuted : forall c, core_limit (parallel c 3) = 1 /\ core_limit (parallel c 2) = 2 /\ forall n co, determine_number_of_chunks n co (parallel c 3) = 1.
Proof. intros c. split; [reflexivity|]. split; reflexivity. Qed.
Print Assumptions C66_three_cores_refuted.
(** A limit of 0 cores: two threads are used from the dual core threshold on, and above the multi core threshold operations panic. *)
Theorem C66_no_cores_refuted : forall md mm ld lm n, 
  (md <= n -> n < Nat.max mm (md + 1) -> determine_number_of_chunks n Medium (with_thresholds 0 md mm ld lm) = 2) /\
  (Nat.max mm (md + 1) <= n -> determine_number_of_chunks n Medium (with_thresholds 0 md mm ld lm) = 0 /\ calc_chunk_size n 1 0 = Panicked).
Proof.
  intros md mm ld lm n. unfold determine_number_of_chunks, with_thresholds. cbn [core_limit med_dual_core_threshold med_multi_core_threshold Nat.eqb].
  split; [intros H1 H2|intros H1; split; [|reflexivity]].
  - destruct (Nat.ltb_spec n md); [lia|]. destruct (Nat.ltb_spec n (Nat.max mm (md + 1))); lia.
  - destruct (Nat.ltb_spec n md); [lia|]. destruct (Nat.ltb_spec n (Nat.max mm (md + 1))); lia.
Qed.
Print Assumptions C66_no_cores_refuted.

(** A machine with four cores: 100 ns per element and no overhead for one thread, a fixed overhead of 300 µs and 40 ns per element with two threads. *)
Definition regress_here (x y : list Z) : option (Z * Z) :=
  match x, y with a :: b :: _, c :: d :: _ => Some ((d - c) / (b - a), c - (d - c) / (b - a) * a)%Z | _, _ => None end.
Local Instance Zrem_se : Rem Z := {| frem := Z.rem; fabs := Z.abs |}.
Local Instance Zrounding_se : Rounding Z := {| fround := fun x => x; ffloor := fun x => x; fceil := fun x => x; to_usize := fun x => Some (Z.to_nat x);
  to_isize := fun x => Some x; as_usize := Z.to_nat |}.
Definition times_here (size threads : nat) : Z := if threads =? 1 then (100 * Z.of_nat size)%Z else (300 * Z.of_nat thousand + 40 * Z.of_nat size)%Z.
Example C66_example : exists c, calibrate times_here (fun _ => true) regress_here (fun n => 2 * n) 4 = Done c /\ plausible c /\
  c_med_dual c = 10 * thousand /\ c_med_multi c = 10 * thousand + 1 /\ c_large_dual c = 5 * thousand /\ c_large_multi c = 5 * thousand + 1.
Proof.
  destruct (C66_no_panic times_here (fun _ => true) regress_here (fun n => 2 * n) 4 ltac:(done)) as [c E]. exists c. split; [done|].
  split; [exact (C66_calibration _ _ _ _ _ _ E)|]. vm_compute in E. injection E as <-. split_and!; vm_compute; reflexivity.
Qed.
Example C66_par_example : exists c v st, plausible c /\ construct_par c 8 ToRealTime (Storage KVec 3 [1; 2; 3]%Z) = Done (v, st) /\ core_limit st = 4 /\ vdata v = Done [1; 2; 3]%Z.
Proof.
  exists (Calibration (50 * thousand) (100 * thousand) (20 * thousand) (30 * thousand) 2). eexists _, _. split.
  - unfold plausible. cbn [c_med_dual c_med_multi c_large_dual c_large_multi]. pose proof thousand_pos. lia.
  - split; [reflexivity|]. split; vm_compute; reflexivity.
Qed.
