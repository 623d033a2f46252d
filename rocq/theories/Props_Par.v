(** C13 to C18: element-wise operations, threads and SIMD. *)
From Verif Require Import Nums Model_F64 Proof_F64 Proof_Chunk Proof_Simd Proof_SimdOps Proof_Elem Proof_ElemOps Spec_Par Model_Chunk.
Local Open Scope nat_scope.

(** * C13 Element-wise operations are point-wise and fail atomically *)

Theorem C13_add : forall {A} `{Num A}, op_spec nadd complex_sum false vadd.
Proof. exact @vadd_spec. Qed.
Print Assumptions C13_add.
Theorem C13_sub : forall {A} `{Num A}, op_spec nsub complex_difference false vsub.
Proof. exact @vsub_spec. Qed.
Print Assumptions C13_sub.
Theorem C13_mul : forall {A} `{Num A}, op_spec nmul complex_product true vmul.
Proof. exact @vmul_spec. Qed.
Print Assumptions C13_mul.
Theorem C13_div : forall {A} `{Num A}, op_spec ndiv complex_quotient true vdiv.
Proof. exact @vdiv_spec. Qed.
Print Assumptions C13_div.

(** Scaling and offsets are point-wise as well. *)
Theorem C13_scale_real : forall {A} `{Num A} r addr s sched k (v : dvec A),
  reg_ok r -> elem_aligned r addr -> half_aligned r addr \/ len v < (addr mod reg_bytes r) / elem_size r + reg_len r ->
  (forall l, reals v l -> exists v', scale_real r addr s sched k v = Done v' /\
     reals v' (map (fun x => x * k)%num l) /\ same_meta v v' /\ same_rest v v') /\
  (forall c, cplx v c -> exists v', scale_real r addr s sched k v = Done v' /\
     cplx v' (map (fun x => (fst x * k, snd x * k)%num) c) /\ same_meta v v' /\ same_rest v v').
Proof. exact @scale_real_spec. Qed.
Print Assumptions C13_scale_real.
Theorem C13_offset_real : forall {A} `{Num A} r addr s sched k (v : dvec A),
  reg_ok r -> elem_aligned r addr -> address_ok r addr v ->
  (forall l, reals v l -> exists v', offset_real r addr s sched k v = Done v' /\
     reals v' (map (fun x => x + k)%num l) /\ same_meta v v' /\ same_rest v v') /\
  (forall c, cplx v c -> exists v', offset_real r addr s sched k v = Done v' /\
     cplx v' (map (fun x => (fst x + k, snd x + n0)%num) c) /\ same_meta v v' /\ same_rest v v').
Proof. exact @offset_real_spec. Qed.
Print Assumptions C13_offset_real.
Theorem C13_offset_complex : forall {A} `{Num A} r addr s sched k (v : dvec A) c,
  reg_ok r -> elem_aligned r addr -> address_ok r addr v -> cplx v c ->
  exists v', offset_complex r addr s sched k v = Done v' /\ cplx v' (map (fun x => complex_sum x k) c) /\ same_meta v v' /\ same_rest v v'.
Proof. exact @offset_complex_spec. Qed.
Print Assumptions C13_offset_complex.
Theorem C13_scale_complex : forall {A} `{Num A} r addr s sched k (v : dvec A) c,
  reg_ok r -> elem_aligned r addr -> address_ok r addr v -> cplx v c ->
  exists v', scale_complex r addr s sched k v = Done v' /\ cplx v' (map (fun x => complex_product x k) c) /\ same_meta v v' /\ same_rest v v'.
Proof. exact @scale_complex_spec. Qed.
Print Assumptions C13_scale_complex.

(** The restriction on the storage is needed: the same vectors with one spare element behind the valid part can be added, but not
    multiplied. *)
Theorem C13_mul_odd_storage_refuted : forall {A} `{Num A} r addr s sched (v o : dvec A) c co,
  reg_ok r -> elem_aligned r addr -> address_ok r addr v -> cplx v c -> cplx o co -> length c = length co -> meta_agree v o ->
  Nat.even (alloc_len v) = false -> vmul r addr s sched v o = Panicked.
Proof. exact @complex_odd_storage. Qed.
Print Assumptions C13_mul_odd_storage_refuted.

(** Numbers modulo nothing: integers in which the division keeps three decimal places would be needed to have a delta ratio; the example uses deltas
    of 1 and an integer quotient, for which 11/10 and 9/10 become 1 and 0. *)
Definition ex_real (l : list Z) : dvec Z := DVec (Storage KVec (length l) l) 1%Z DTime NReal (length l).
Definition ex_cplx (l : list Z) : dvec Z := DVec (Storage KVec (length l) l) 1%Z DTime NComplex (length l).
Definition ex_settings : settings := with_thresholds 4 2 3 2 3.
Example C13_example :
  let v := ex_cplx [1; 2; 3; 4; 5; 6]%Z in let o := ex_cplx [1; 1; 0; 2; 3; 0]%Z in
  reg_ok f64x2 /\ elem_aligned f64x2 48 /\ address_ok f64x2 48 v /\ whole_points v /\ meta_agree v o /\
  cplx v [(1, 2); (3, 4); (5, 6)]%Z /\ cplx o [(1, 1); (0, 2); (3, 0)]%Z /\
  exists v', vmul f64x2 48 ex_settings [0; 1] v o = Done (v', Ok tt) /\ cplx v' [(-1, 3); (-8, 6); (15, 18)]%Z.
Proof.
  cbv zeta. split_and!; try done; try (vm_compute; split_and!; done || lia).
  - unfold address_ok, half_aligned, point_aligned. left. by vm_compute.
  - eexists. split; [by vm_compute|]. by vm_compute.
Qed.

(** * C14 Wrap-around operations repeat the smaller operand *)

Theorem C14_add_smaller : forall {A} `{Num A}, smaller_spec nadd complex_sum add_smaller.
Proof. exact @add_smaller_spec. Qed.
Print Assumptions C14_add_smaller.
Theorem C14_sub_smaller : forall {A} `{Num A}, smaller_spec nsub complex_difference sub_smaller.
Proof. exact @sub_smaller_spec. Qed.
Print Assumptions C14_sub_smaller.
Theorem C14_mul_smaller : forall {A} `{Num A}, smaller_spec nmul complex_product mul_smaller.
Proof. exact @mul_smaller_spec. Qed.
Print Assumptions C14_mul_smaller.
Theorem C14_div_smaller : forall {A} `{Num A}, smaller_spec ndiv complex_quotient div_smaller.
Proof. exact @div_smaller_spec. Qed.
Print Assumptions C14_div_smaller.

Example C14_example :
  let v := ex_real [1; 2; 3; 4; 5; 6]%Z in let o := ex_real [10; 20; 30]%Z in
  len o <> 0 /\ len v mod len o = 0 /\ meta_agree v o /\ reals v [1; 2; 3; 4; 5; 6]%Z /\ reals o [10; 20; 30]%Z /\
  exists v', add_smaller f64x2 ex_settings [] v o = Done (v', Ok tt) /\ reals v' [11; 22; 33; 14; 25; 36]%Z.
Proof. cbv zeta. split_and!; try done; try (vm_compute; split_and!; done || lia). eexists. split; by vm_compute. Qed.

(** * C15 Multicore settings never change a result *)

(** The schedule never matters: the pieces are disjoint, hence every interleaving of the steps of the threads has the outcome of running the
    threads one after the other (including panics). *)
Theorem C15_any_interleaving : forall {A} (sched sched' : list nat) (pool : list (task A)),
  run_pool sched pool = run_pool sched' pool.
Proof. intros A sched sched' pool. by rewrite !run_pool_any. Qed.
Print Assumptions C15_any_interleaving.

(** In place operations: if the work is local ([splittable]), every setting and every schedule have the outcome of the work on the whole array. *)
Theorem C15_in_place : forall {A} co s sched (array : list A) w f F,
  0 < w -> array <> [] -> splittable w F ->
  (forall off c, run_steps (f off (length c)) c = F off c) ->
  execute_partial co s sched array w f = F 0 array.
Proof. exact @execute_partial_any. Qed.
Print Assumptions C15_in_place.
Theorem C15_in_place_with_range : forall {A} co s sched (array : list A) w f F,
  0 < w -> array <> [] -> splittable w F ->
  (forall off c, run_steps (f (off, off + length c) (length c)) c = F off c) ->
  execute_with_range co s sched array w f = F 0 array.
Proof. exact @execute_with_range_any. Qed.
Print Assumptions C15_in_place_with_range.
Theorem C15_source_to_destination : forall {A} co s sched k (target : list A) w f F,
  0 < w -> 0 < k -> target <> [] -> splittable w F ->
  (forall off c, run_steps (f (k * off, k * (off + length c)) off (length c)) c = F off c) ->
  from_src_to_dest co s sched (k * length target) (k * w) target w f = F 0 target.
Proof. exact @from_src_to_dest_any. Qed.
Print Assumptions C15_source_to_destination.

(** Instances: the real and complex point-wise operations which use the threads, for all settings and schedules. *)
Theorem C15_pointwise_real : forall {A} s sched (op : A -> A) co (v : dvec A) l,
  vdata v = Done l -> l <> [] \/ no_threads_for_nothing co s ->
  exists v', pure_real_operation s sched op co v = Done v' /\ vdata v' = Done (map op l) /\ same_meta v v' /\ same_rest v v'.
Proof. exact @pure_real_operation_spec. Qed.
Print Assumptions C15_pointwise_real.
Theorem C15_pointwise_complex : forall {A} s sched (op : A * A -> A * A) co (v : dvec A) c,
  vdata v = Done (complex_to_array c) -> c <> [] \/ no_threads_for_nothing co s ->
  exists v', pure_complex_operation s sched op co v = Done v' /\ vdata v' = Done (complex_to_array (map op c)) /\
    same_meta v v' /\ same_rest v v'.
Proof. exact @pure_complex_operation_spec. Qed.
Print Assumptions C15_pointwise_complex.

(** What the threads report is the report of each piece, in some order. *)
Theorem C15_reports : forall {A R} co s order (array : list A) w (f : list A -> nat * nat -> run R) g,
  0 < w -> (forall c r, f c r = Done (g c r)) ->
  exists pieces ranges rs, get_chunked_results co s order array w f = Done rs /\
    tiles array w pieces ranges /\ rs ≡ₚ zip_with g pieces ranges.
Proof. exact @get_chunked_results_any. Qed.
Print Assumptions C15_reports.

(** The same when the threads get a piece of a second array of the same size and the matching range of the first. *)
Theorem C15_reports_zipped : forall {A R} co s order (a b : list A) w (f : list A -> nat * nat -> list A -> run R) g,
  0 < w -> length a = length b -> (forall c r, f a r c = Done (g r c)) ->
  exists pieces ranges rs, get_zipped co s order a w b w f = Done rs /\
    tiles b w pieces ranges /\ rs ≡ₚ zip_with g ranges pieces.
Proof. exact @get_zipped_any. Qed.
Print Assumptions C15_reports_zipped.

(** The two exceptions. With thresholds of zero a worker pool is started even for an empty array, and cutting it panics; the single threaded
    execution is fine. *)
Theorem C15_empty_refuted : forall {A} s sched (op : A -> A) co (v : dvec A), vdata v = Done [] ->
  (determine_number_of_chunks 0 co s <= 1 -> exists v', pure_real_operation s sched op co v = Done v' /\ vdata v' = Done []) /\
  (1 < determine_number_of_chunks 0 co s -> pure_real_operation s sched op co v = Panicked).
Proof.
  intros A s sched op co v Hv. pose proof (vdata_inv _ _ Hv) as (Hl & _). unfold vdata in Hv. rewrite Hl in Hv. cbn [length] in *.
  unfold pure_real_operation. rewrite Hl, Hv, bind_Done. unfold execute_partial. cbn [length]. split; intros Hn.
  - destruct (Nat.ltb_spec 1 (determine_number_of_chunks 0 co s)); [lia|]. cbn. eexists. split; [reflexivity|].
    destruct v as [d de dom ns vl]. cbn in Hl. subst vl. reflexivity.
  - destruct (Nat.ltb_spec 1 (determine_number_of_chunks 0 co s)) as [Hlt|]; [|lia].
    unfold partition, calc_chunk_size. generalize dependent (determine_number_of_chunks 0 co s). intros n _ Hlt. cbn [length].
    assert (ceil_div 0 n = 0) as -> by (unfold ceil_div; rewrite ?Nat.add_0_l; first [apply Nat.div_small; lia | rewrite Nat.div_0_l, Nat.mod_0_l by lia; reflexivity]).
    destruct n as [|n]; [lia|]. reflexivity.
Qed.
Print Assumptions C15_empty_refuted.
Example C15_empty_example : exists (v : dvec Z),
  vdata v = Done [] /\
  pure_real_operation (with_thresholds 1 0 0 0 0) [] Z.opp Medium v = Done v /\
  pure_real_operation (with_thresholds 2 0 0 0 0) [] Z.opp Medium v = Panicked.
Proof. exists (ex_real []). by vm_compute. Qed.
(** The pairwise execution for symmetric functions gives each thread a piece from the front and one from the back, but these do not have to be
    mirror images: here the piece of elements 0 and 1 is paired with a piece which only has element 6. *)
Theorem C15_sym_pairs_refuted :
  let swap (a : list Z) (_ : nat * nat) (b : list Z) (_ : nat * nat) := Done (rev b ++ drop (length b) a, take (length b) (rev a)) in
  execute_sym_pairs Medium (with_thresholds 2 1 2 1 2) [0; 1; 2; 3; 4; 5; 6; 7; 8]%Z 1 swap <>
  execute_sym_pairs Medium (with_thresholds 1 1 2 1 2) [0; 1; 2; 3; 4; 5; 6; 7; 8]%Z 1 swap.
Proof. vm_compute. intros H. discriminate H. Qed.
Print Assumptions C15_sym_pairs_refuted.

Example C15_example : exists v', pure_complex_operation ex_settings [1; 0; 2; 1; 1; 0] (fun x => (snd x, fst x)) Medium (ex_cplx [1; 2; 3; 4; 5; 6]%Z) = Done v' /\
  cplx v' [(2, 1); (4, 3); (6, 5)]%Z /\ determine_number_of_chunks 6 Medium ex_settings = 4.
Proof. eexists. split; by vm_compute. Qed.

(** * C16 Work partitioning covers every element exactly once *)

Theorem C16_partition : forall {A} (array : list A) w n, 0 < w -> 0 < n -> array <> [] ->
  exists pieces ranges, partition array w n = Done pieces /\
    partition_in_ranges (length array) w (length pieces) = Done ranges /\
    length pieces <= n /\ tiles array w pieces ranges.
Proof. exact @ranges_of_pieces. Qed.
Print Assumptions C16_partition.
(** The piece size is the least multiple of the step size with which [n] pieces are enough. *)
Theorem C16_chunk_size : forall l w n, 0 < w -> 0 < n ->
  exists cs, calc_chunk_size l w n = Done cs /\ cs mod w = 0 /\ l <= cs * n /\
    (forall c, c mod w = 0 -> l <= c * n -> cs <= c).
Proof. exact calc_chunk_size_spec. Qed.
Print Assumptions C16_chunk_size.

Example C16_example : partition [1; 2; 3; 4; 5; 6; 7; 8; 9; 10]%Z 2 3 = Done [[1; 2; 3; 4]; [5; 6; 7; 8]; [9; 10]]%Z /\
  partition_in_ranges 10 2 3 = Done [(0, 4); (4, 8); (8, 10)].
Proof. by vm_compute. Qed.

(** * C17 Chunk size computed in floating point is exact *)

Theorem C17_exact : forall a n, (Z.of_nat a < 2 ^ 53)%Z -> (0 < Z.of_nat n < 2 ^ 53)%Z ->
  f64_chunk_size (Z.of_nat a) (Z.of_nat n) = Z.of_nat (ceil_div a n).
Proof. exact f64_chunk_size_nat. Qed.
Print Assumptions C17_exact.
(** [ceil_div] is the ceiling: the least number of elements with which [n] pieces hold [a] elements. *)
Theorem C17_ceiling : forall a n, 0 < n -> a <= ceil_div a n * n /\ (forall c, a <= c * n -> ceil_div a n <= c).
Proof. intros a n Hn. split; [by apply ceil_div_le|]. intros c. by apply ceil_div_min. Qed.
Print Assumptions C17_ceiling.
(** The bound is sharp: 2^53 + 1 elements in one piece would lose an element. *)
Theorem C17_bound_sharp : f64_chunk_size (2 ^ 53 + 1) 1 = (2 ^ 53)%Z.
Proof. exact f64_chunk_size_bound. Qed.
Print Assumptions C17_bound_sharp.

Example C17_example : f64_chunk_size 10 3 = 4%Z.
Proof. change 10%Z with (Z.of_nat 10). change 3%Z with (Z.of_nat 3). rewrite C17_exact; [done | lia..]. Qed.

(** * C18 SIMD partitioning is lossless *)

(** Real numbers: exactly the maps of the scalar operation, when the storage is aligned to half a register or too short for registers; else the code
    panics. In particular no element is lost or treated twice, in no case. *)
Theorem C18_real : forall {A} r addr s sched (simd_op : list A -> list A) scalar_op co (v : dvec A) l,
  reg_ok r -> elem_aligned r addr -> no_threads_for_nothing co s -> vdata v = Done l ->
  (forall b, length b = reg_len r -> simd_op b = map scalar_op b) ->
  (half_aligned r addr \/ length l < (addr mod reg_bytes r) / elem_size r + reg_len r ->
     exists v', simd_real_operation r addr s sched simd_op scalar_op co v = Done v' /\
       vdata v' = Done (map scalar_op l) /\ same_meta v v' /\ same_rest v v') /\
  (~ (half_aligned r addr \/ length l < (addr mod reg_bytes r) / elem_size r + reg_len r) ->
     simd_real_operation r addr s sched simd_op scalar_op co v = Panicked).
Proof. exact @simd_real_operation_spec. Qed.
Print Assumptions C18_real.
(** Complex numbers: the storage has to be aligned to a complex number as well. *)
Theorem C18_complex : forall {A} r addr s sched (simd_op : list A -> list A) scalar_op co (v : dvec A) c,
  reg_ok r -> elem_aligned r addr -> no_threads_for_nothing co s -> vdata v = Done (complex_to_array c) ->
  (forall b, length b = reg_len r -> simd_op b = complex_to_array (map scalar_op (pairs_of b))) ->
  (half_aligned r addr /\ point_aligned r addr) \/ 2 * length c < (addr mod reg_bytes r) / elem_size r + reg_len r ->
  exists v', simd_complex_operation r addr s sched simd_op scalar_op co v = Done v' /\
    vdata v' = Done (complex_to_array (map scalar_op c)) /\ same_meta v v' /\ same_rest v v'.
Proof. exact @simd_complex_operation_spec. Qed.
Print Assumptions C18_complex.

(** Two ways in which the code falls short. An address which is aligned to the element (all that Rust guarantees for a slice) but not to half a
    register makes every longer operation panic: [left] is [addr % size], not the distance to the next boundary. *)
Theorem C18_misaligned_refuted : exists (v : dvec Z) addr,
  elem_aligned f32x4 addr /\ reals v [1; 2; 3; 4; 5; 6; 7; 8]%Z /\ scale_real f32x4 addr ex_settings [] 2%Z v = Panicked.
Proof. exists (ex_real [1; 2; 3; 4; 5; 6; 7; 8]%Z), 4. by vm_compute. Qed.
Print Assumptions C18_misaligned_refuted.
(** A complex vector of f64 at an odd multiple of 8 bytes: the registers see (im, re) pairs of neighbouring points, and the first real part and the last
    imaginary part are not processed at all. *)
Theorem C18_mispaired_refuted : exists (v : dvec Z) addr v',
  elem_aligned f64x2 addr /\ cplx v [(1, 2); (3, 4); (5, 6)]%Z /\
  scale_complex f64x2 addr ex_settings [] (0, 1)%Z v = Done v' /\
  cplx v' [(1, -3); (2, -5); (4, 6)]%Z /\ map (fun x => complex_product x (0, 1)%Z) [(1, 2); (3, 4); (5, 6)]%Z = [(-2, 1); (-4, 3); (-6, 5)]%Z.
Proof. exists (ex_cplx [1; 2; 3; 4; 5; 6]%Z), 8. eexists. split_and!; try by vm_compute. Qed.
Print Assumptions C18_mispaired_refuted.

Example C18_example : exists v', scale_real f32x4 8 ex_settings [] 2%Z (ex_real [1; 2; 3; 4; 5; 6; 7]%Z) = Done v' /\
  half_aligned f32x4 8 /\ reals v' [2; 4; 6; 8; 10; 12; 14]%Z /\ calc_data_alignment_reqs f32x4 8 7 = Done (SimdPartition 2 1 7).
Proof. eexists. split_and!; by vm_compute. Qed.
