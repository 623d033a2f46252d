(** Settings and calibration *)
From Verif Require Import Proof_Base Proof_Frame Proof_Vec Proof_Chunk Proof_SimdOps Proof_Elem Proof_ElemOps.
From Verif Require Export Spec_Settings.
From stdpp Require Import tactics.
From Verif Require Import Model_Chunk.
Local Open Scope nat_scope.

Lemma limit_range v a b : a <= b -> a <= limit v a b <= b.
Proof. intros Hab. unfold limit. destruct (Nat.ltb_spec v a), (Nat.ltb_spec b v); lia. Qed.
Lemma limit_mono v w a b a' b' : v <= w -> a <= a' -> b <= b' -> a <= b -> a' <= b' -> limit v a b <= limit w a' b'.
Proof. intros. unfold limit. destruct (Nat.ltb_spec v a), (Nat.ltb_spec b v), (Nat.ltb_spec w a'), (Nat.ltb_spec b' w); lia. Qed.

Lemma thousand_pos : 0 < thousand.
Proof. unfold thousand. lia. Qed.
Local Opaque thousand Nat.mul limit.
Section calibrate.
Context {A : Type} `{Num A} `{Rem A} `{RA : Rounding A}.
Lemma calibrate_cases elapsed finite regress twice cores c : calibrate (A := A) elapsed finite regress twice cores = Done c ->
  (exists d m, c = Calibration (limit (twice d) (5 * thousand) (100 * thousand))
      (limit (twice m) (limit (twice d) (5 * thousand) (100 * thousand) + 1) (200 * thousand))
      (limit d (5 * thousand) (100 * thousand)) (limit m (limit d (5 * thousand) (100 * thousand) + 1) (200 * thousand)) 0) \/
  exists e, c = Calibration (50 * thousand) (100 * thousand) (20 * thousand) (30 * thousand) e.
Proof.
  unfold calibrate, attempt_calibrate. intros E. apply bind_Done_inv in E as (x & E & E'). injection E' as <-.
  destruct (cores =? 1); [injection E as <-; right; eexists; reflexivity|].
  destruct (measurements elapsed cores 10 (10 * thousand)) as [[[[sizes ones] twos] maxs]|e]; [|injection E as <-; right; eexists; reflexivity].
  destruct (regress sizes twos) as [[]|]; [|injection E as <-; right; eexists; reflexivity].
  destruct (regress sizes maxs) as [[]|]; [|injection E as <-; right; eexists; reflexivity].
  apply bind_Done_inv in E as (t1 & _ & E). destruct (lines_meet t1 n0 _ _) as [d|]; [|injection E as <-; right; eexists; reflexivity].
  destruct (lines_meet t1 n0 _ _) as [m|]; [|injection E as <-; right; eexists; reflexivity]. cbv zeta in E. injection E as <-. left. exists d, m; reflexivity.
Qed.
Theorem calibrate_plausible elapsed finite regress twice cores c : calibrate (A := A) elapsed finite regress twice cores = Done c -> plausible c.
Proof.
  intros E. destruct (calibrate_cases _ _ _ _ _ _ E) as [(d & m & ->)|[e ->]]; unfold plausible; cbn [c_med_dual c_med_multi c_large_dual c_large_multi].
  - pose proof (limit_range (twice d) (5 * thousand) (100 * thousand) ltac:(lia)). pose proof (limit_range d (5 * thousand) (100 * thousand) ltac:(lia)).
    set (x := limit (twice d) _ _) in *. set (y := limit d _ _) in *. clearbody x y. pose proof thousand_pos.
    pose proof (limit_range (twice m) (x + 1) (200 * thousand) ltac:(lia)). pose proof (limit_range m (y + 1) (200 * thousand) ltac:(lia)). lia.
  - pose proof thousand_pos. lia.
Qed.
(** The large operations start threads earlier than the ones of medium complexity, if the doubling doesn't overflow. *)
Theorem calibrate_larger elapsed finite regress twice cores c : (forall n, n <= twice n) -> calibrate (A := A) elapsed finite regress twice cores = Done c ->
  c_large_dual c <= c_med_dual c /\ c_large_multi c <= c_med_multi c.
Proof.
  intros Ht E. destruct (calibrate_cases _ _ _ _ _ _ E) as [(d & m & ->)|[e ->]]; cbn [c_med_dual c_med_multi c_large_dual c_large_multi]; [|pose proof thousand_pos; lia].
  assert (Hd : limit d (5 * thousand) (100 * thousand) <= limit (twice d) (5 * thousand) (100 * thousand)) by (apply limit_mono; [apply Ht|lia..]).
  pose proof (limit_range (twice d) (5 * thousand) (100 * thousand) ltac:(lia)). pose proof (limit_range d (5 * thousand) (100 * thousand) ltac:(lia)).
  split; [done|]. pose proof thousand_pos. apply limit_mono; [apply Ht|lia..].
Qed.
Theorem calibrate_panics elapsed finite regress twice cores : (forall x, finite x = true) -> exists c, calibrate (A := A) elapsed finite regress twice cores = Done c.
Proof.
  intros Hf. unfold calibrate, attempt_calibrate. destruct (cores =? 1); [eexists; reflexivity|].
  destruct (measurements elapsed cores 10 (10 * thousand)) as [[[[sizes ones] twos] maxs]|e]; [|eexists; reflexivity].
  destruct (regress sizes twos) as [[]|]; [|eexists; reflexivity]. destruct (regress sizes maxs) as [[]|]; [|eexists; reflexivity].
  unfold proportional_regression. cbv zeta. rewrite Hf. cbn [unwrapped]. rewrite bind_Done.
  destruct (lines_meet _ n0 _ _) as [d|]; [|eexists; reflexivity]. destruct (lines_meet _ n0 _ _) as [m|]; [|eexists; reflexivity]. eexists; reflexivity.
Qed.
(** With one core nothing is measured, and the defaults are used. *)
Theorem calibrate_one elapsed finite regress twice : calibrate (A := A) elapsed finite regress twice 1 = Done (Calibration (50 * thousand) (100 * thousand) (20 * thousand) (30 * thousand) 2).
Proof. reflexivity. Qed.
End calibrate.

Lemma new_settings_ordered c cores : plausible c -> ordered (new_settings c cores) /\ core_limit (new_settings c cores) = Nat.max 1 cores.
Proof.
  intros (P1 & P2 & P3 & P4). pose proof thousand_pos as HT. unfold new_settings, ordered.
  destruct (Nat.leb_spec cores 1); cbn [med_dual_core_threshold med_multi_core_threshold large_dual_core_threshold large_multi_core_threshold core_limit]; split; lia.
Qed.
Lemma parallel_eq c n : parallel c n = new_settings c (if n =? 2 then 2 else n / 2).
Proof.
  unfold parallel. destruct (Nat.eqb_spec n 1) as [->|]; [reflexivity|]. by destruct (n =? 2).
Qed.
Lemma ordered_within s : ordered s -> 1 <= core_limit s -> within_limit s /\ grows s /\ forall c, no_threads_for_nothing c s.
Proof.
  intros [[O1 O2] [O3 O4]] Hc.
  assert (Hw : forall n c, determine_number_of_chunks n c s = if core_limit s =? 1 then core_limit s else match c with Small => 1
     | Medium => if n <? med_dual_core_threshold s then 1 else if n <? med_multi_core_threshold s then 2 else core_limit s
     | Large => if n <? large_dual_core_threshold s then 1 else if n <? large_multi_core_threshold s then 2 else core_limit s end) by reflexivity.
  split_and!.
  - intros n c. rewrite Hw. destruct (Nat.eqb_spec (core_limit s) 1) as [E|E]; [lia|].
    destruct c; [lia|destruct (Nat.ltb_spec n (med_dual_core_threshold s)), (Nat.ltb_spec n (med_multi_core_threshold s)); lia|].
    destruct (Nat.ltb_spec n (large_dual_core_threshold s)), (Nat.ltb_spec n (large_multi_core_threshold s)); lia.
  - intros n m c Hnm. rewrite !Hw. destruct (Nat.eqb_spec (core_limit s) 1) as [E|E]; [lia|].
    destruct c; [lia| |].
    + destruct (Nat.ltb_spec n (med_dual_core_threshold s)), (Nat.ltb_spec n (med_multi_core_threshold s)), (Nat.ltb_spec m (med_dual_core_threshold s)), (Nat.ltb_spec m (med_multi_core_threshold s)); lia.
    + destruct (Nat.ltb_spec n (large_dual_core_threshold s)), (Nat.ltb_spec n (large_multi_core_threshold s)), (Nat.ltb_spec m (large_dual_core_threshold s)), (Nat.ltb_spec m (large_multi_core_threshold s)); lia.
  - intros c. unfold no_threads_for_nothing. rewrite Hw. destruct (Nat.eqb_spec (core_limit s) 1) as [E|E]; [lia|].
    destruct c; [lia|destruct (Nat.ltb_spec 0 (med_dual_core_threshold s)); lia|destruct (Nat.ltb_spec 0 (large_dual_core_threshold s)); lia].
Qed.
Lemma with_thresholds_ordered cl md mm ld lm : 0 < md -> 0 < ld -> ordered (with_thresholds cl md mm ld lm).
Proof. intros H1 H2. unfold ordered, with_thresholds. cbn [med_dual_core_threshold med_multi_core_threshold large_dual_core_threshold large_multi_core_threshold]. lia. Qed.

(** ** Vectors of the parallel constructors *)
Lemma same_parts {A} (v v1 v2 : dvec A) : vdata v1 = vdata v2 -> (exists l, vdata v1 = Done l) -> same_meta v v1 -> same_meta v v2 -> same_rest v v1 -> same_rest v v2 -> v1 = v2.
Proof.
  intros Hd [l Hl] (M1 & M2 & M3) (N1 & N2 & N3) (R1 & R2 & R3 & R4) (S1 & S2 & S3 & S4).
  rewrite Hl in Hd. symmetry in Hd.
  destruct (vdata_split v1 l Hl) as (r1 & E1 & L1). destruct (vdata_split v2 l Hd) as (r2 & E2 & L2).
  unfold len in *. rewrite R3 in L1. rewrite S3 in L2. rewrite E1, L1, drop_app in R4. rewrite E2, L1, drop_app in S4.
  assert (r1 = r2) by congruence. subst r2.
  destruct v1 as [[k1 c1 e1] d1 m1 n1 l1], v2 as [[k2 c2 e2] d2 m2 n2 l2]. cbn [delta domain number_space valid_len Model_Vec.data s_kind s_cap elems s_elems] in *.
  unfold elems in *. cbn [Model_Vec.data s_elems] in *. congruence.
Qed.

Lemma same_with_settings_real {A} s1 s2 sched1 sched2 (op : A -> A) co (v : dvec A) l : vdata v = Done l -> no_threads_for_nothing co s1 -> no_threads_for_nothing co s2 ->
  exists v', pure_real_operation s1 sched1 op co v = Done v' /\ pure_real_operation s2 sched2 op co v = Done v'.
Proof.
  intros Hv H1 H2. destruct (pure_real_operation_spec s1 sched1 op co v l Hv (or_intror H1)) as (v1 & E1 & D1 & M1 & R1).
  destruct (pure_real_operation_spec s2 sched2 op co v l Hv (or_intror H2)) as (v2 & E2 & D2 & M2 & R2).
  exists v1. split; [done|]. rewrite E2. f_equal. apply (same_parts v); try done; [congruence|by eexists].
Qed.
Lemma same_with_settings_complex {A} s1 s2 sched1 sched2 (op : A * A -> A * A) co (v : dvec A) c : vdata v = Done (complex_to_array c) ->
  no_threads_for_nothing co s1 -> no_threads_for_nothing co s2 ->
  exists v', pure_complex_operation s1 sched1 op co v = Done v' /\ pure_complex_operation s2 sched2 op co v = Done v'.
Proof.
  intros Hv H1 H2. destruct (pure_complex_operation_spec s1 sched1 op co v c Hv (or_intror H1)) as (v1 & E1 & D1 & M1 & R1).
  destruct (pure_complex_operation_spec s2 sched2 op co v c Hv (or_intror H2)) as (v2 & E2 & D2 & M2 & R2).
  exists v1. split; [done|]. rewrite E2. f_equal. apply (same_parts v); try done; [congruence|by eexists].
Qed.
