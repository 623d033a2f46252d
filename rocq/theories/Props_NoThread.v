(** C60: the build without threads. *)
From Verif Require Import Nums Model_F64 Proof_F64 Proof_Chunk Proof_Simd Proof_SimdOps Proof_Elem Proof_ElemOps Spec_Par Model_Chunk Model_NoThread Props_Par.
Local Open Scope nat_scope.

(** * C60 The build without std computes what the build with threads computes *)

(** In place operations: whatever the settings and the schedule of the threads, if the work is local the build without threads has the same
    outcome (result or panic). *)
Theorem C60_in_place : forall {A} co s sched ns (array : list A) w f F,
  0 < w -> array <> [] -> splittable w F ->
  (forall off c, run_steps (f off (length c)) c = F off c) ->
  nt_execute_partial co ns array w f = execute_partial co s sched array w f.
Proof. intros A co s sched ns array w f F Hw Ha HF Hf. rewrite (execute_partial_any co s sched array w f F) by done. exact (Hf 0 array). Qed.
Print Assumptions C60_in_place.
Theorem C60_in_place_with_range : forall {A} co s sched ns (array : list A) w f F,
  0 < w -> array <> [] -> splittable w F ->
  (forall off c, run_steps (f (off, off + length c) (length c)) c = F off c) ->
  nt_execute_with_range co ns array w f = execute_with_range co s sched array w f.
Proof. intros A co s sched ns array w f F Hw Ha HF Hf. rewrite (execute_with_range_any co s sched array w f F) by done. exact (Hf 0 array). Qed.
Print Assumptions C60_in_place_with_range.
Theorem C60_source_to_destination : forall {A} co s sched ns k (target : list A) w f F,
  0 < w -> 0 < k -> target <> [] -> splittable w F ->
  (forall off c, run_steps (f (k * off, k * (off + length c)) off (length c)) c = F off c) ->
  nt_from_src_to_dest co ns (k * length target) (k * w) target w f = from_src_to_dest co s sched (k * length target) (k * w) target w f.
Proof.
  intros A co s sched ns k target w f F Hw Hk Ha HF Hf. rewrite (from_src_to_dest_any co s sched k target w f F) by done.
  unfold nt_from_src_to_dest. specialize (Hf 0 target). by rewrite Nat.mul_0_r, Nat.add_0_l in Hf.
Qed.
Print Assumptions C60_source_to_destination.

(** Without any condition on the work, for empty arrays and for the pairwise execution as well: the build without threads does exactly
    what the threaded build does when the number of cores is limited to one. The theorems about all settings therefore cover this build. *)
Theorem C60_one_core : forall {A R} co ns sched md mm ld lm (array b : list A) w wb n target,
  let s := with_thresholds 1 md mm ld lm in
  (forall f, nt_execute_partial co ns array w f = execute_partial co s sched array w f) /\
  (forall f, nt_execute_with_range co ns array w f = execute_with_range co s sched array w f) /\
  (forall f, nt_from_src_to_dest co ns n w target wb f = from_src_to_dest co s sched n w (target : list A) wb f) /\
  (forall f, nt_execute_sym_pairs co ns array w f = execute_sym_pairs co s array w f) /\
  (forall f, nt_map_on_array_chunks co ns array w f = @map_on_array_chunks A R co s sched array w f) /\
  (forall f, nt_get_chunked_results co ns array w f = @get_chunked_results A R co s sched array w f) /\
  (forall f, nt_get_zipped co ns array w b wb f = @get_zipped A R co s sched array w b wb f).
Proof. intros. split_and!; intros f; try done; by destruct array. Qed.
Print Assumptions C60_one_core.

Example C60_example :
  let f (off n : nat) : list (list Z -> run (list Z)) := [fun c => Done (map Z.opp c)] in
  nt_execute_partial Medium (nt_with_thresholds 4 2 3 2 3) [1; 2; 3; 4; 5]%Z 1 f = Done [-1; -2; -3; -4; -5]%Z /\
  execute_partial Medium ex_settings [2; 0; 1] [1; 2; 3; 4; 5]%Z 1 f = Done [-1; -2; -3; -4; -5]%Z /\
  splittable 1 (fun _ l => Done (map Z.opp l)) /\
  determine_number_of_chunks 5 Medium ex_settings = 4.
Proof. cbv zeta. split_and!; try by vm_compute. apply splittable_map. Qed.
