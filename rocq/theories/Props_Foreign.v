(** C69: what a client of the C interface reads; C70: the life of its vectors *)
From stdpp Require Import gmap tactics.
From Verif Require Import Proof_Map Proof_ForeignNum Proof_Foreign Props_Interop Props_Vec Props_Settings Nums NumsFlt NumsTrig Spec_Foreign.
From Verif Require Import Spec_Settings Proof_Base Props_Stats Spec_Index Model_MatOps Model_Foreign.
Local Open Scope nat_scope.

(** ** C69: reading and writing *)
Theorem C69_reads_reals : forall {A} `{Num A} (x : ivec A) l, reals (i_vec x) l ->
  is_complex_code x = 0%Z /\ get_len x = length l /\ get_points x = length l /\ length l <= get_allocated_len x /\ foreign_data x = Done l /\
  (forall i y, get_value x i = Done y <-> l !! i = Some y) /\ (forall i, get_value x i = Panicked <-> length l <= i).
Proof.
  intros A HN x l [Hc Hl]. destruct (vdata_len (i_vec x) l Hl) as [Hn Ha]. unfold is_complex_code, get_len, get_points, get_allocated_len, points. rewrite Hc.
  split_and!; try done; [unfold len in Hn; rewrite Nat.div_1_r; exact Hn|exact (full_range _ l Hl)|intros i y; exact (proj1 (get_value_spec x l i Hl) y)|intros i; exact (proj2 (get_value_spec x l i Hl))].
Qed.
Print Assumptions C69_reads_reals.
Theorem C69_reads_complex : forall {A} `{Num A} (x : ivec A) c, cplx (i_vec x) c ->
  is_complex_code x = 1%Z /\ get_len x = 2 * length c /\ get_points x = length c /\ 2 * length c <= get_allocated_len x /\
  foreign_data x = Done (complex_to_array c) /\ foreign_complex_data x = Done c /\
  (forall i z, c !! i = Some z -> get_value x (2 * i) = Done (fst z) /\ get_value x (2 * i + 1) = Done (snd z)).
Proof.
  intros A HN x c Hc. pose proof Hc as [Hb Hl]. destruct (vdata_len (i_vec x) _ Hl) as [Hn Ha]. rewrite complex_to_array_length in Hn, Ha.
  unfold is_complex_code, get_len, get_points, get_allocated_len. rewrite Hb. destruct (Proof_Index.cplx_slice _ _ Hc) as [_ Hp].
  split_and!; try done; [exact (full_range _ _ Hl)|exact (full_rangec _ c Hc)|].
  intros i z Hz. pose proof (complex_to_array_lookup c i) as [L1 L2]. rewrite Hz in L1, L2. split; apply (get_value_spec x _ _ Hl); assumption.
Qed.
Print Assumptions C69_reads_complex.
Theorem C69_domain : forall {A} (x : ivec A), (get_domain x = 0%Z <-> vdomain (i_vec x) = Time) /\ (get_domain x = 1%Z <-> vdomain (i_vec x) = Frequency).
Proof. intros A x. unfold get_domain. by destruct (vdomain (i_vec x)). Qed.
Print Assumptions C69_domain.
(** What is written can be read, and nothing else changes. *)
Theorem C69_set_value : forall {A} `{Num A} (x : ivec A) l i z, vdata (i_vec x) = Done l ->
  (i < length l -> exists y, set_value x i z = Done y /\ get_value y i = Done z /\ (forall k, k <> i -> get_value y k = get_value x k) /\
     get_len y = get_len x /\ get_delta y = get_delta x /\ is_complex_code y = is_complex_code x /\ get_domain y = get_domain x) /\
  (length l <= i -> set_value x i z = Panicked).
Proof.
  intros A HN x l i z Hl. destruct (set_value_spec x l i z Hl) as [S1 S2]. split; [|exact S2]. intros Hi. destruct (S1 Hi) as (y & E & _ & Hy & (M1 & M2 & M3) & (R1 & R2 & R3 & _)).
  exists y. split; [exact E|]. split_and!.
  - apply (get_value_spec y _ i Hy). by apply list_lookup_insert.
  - intros k Hk. unfold get_value. rewrite Hy, Hl, !bind_Done. unfold rd. by rewrite list_lookup_insert_ne by congruence.
  - exact R3.
  - exact M1.
  - unfold is_complex_code, is_complex. by rewrite M3.
  - unfold get_domain, vdomain. by rewrite M2.
Qed.
Print Assumptions C69_set_value.
(** [set_len64]: the first elements stay. *)
Theorem C69_set_len : forall {A} `{Num A} (x : ivec A) l n, s_kind (data (i_vec x)) = KVec -> wf_storage (data (i_vec x)) -> vdata (i_vec x) = Done l ->
  ~ (is_complex (i_vec x) = true /\ Nat.odd n = true) ->
  get_len (set_len x n) = n /\ (forall i, i < n -> i < length l -> get_value (set_len x n) i = get_value x i) /\
  (alloc_len (i_vec x) = length l -> vdata (i_vec (set_len x n)) = Done (take n l ++ replicate (n - length l) n0)) /\
  get_delta (set_len x n) = get_delta x /\ is_complex_code (set_len x n) = is_complex_code x /\ get_domain (set_len x n) = get_domain x.
Proof.
  intros A HN x l n Hk Hw Hl Hodd. unfold set_len. destruct (Model_Vec.resize n0 (i_vec x) n) as [w r] eqn:E. cbn [fst].
  destruct (C02_resize n0 (i_vec x) w n r Hw E) as (H1 & H2 & _ & H4 & H5).
  assert (Hr : r = Ok tt).
  { destruct H5 as [?|[H5|H5]]; [done| |]; [by apply H1 in H5|]. apply H2 in H5 as [_ H5]. exfalso. apply H5. unfold can_hold. by rewrite Hk. }
  destruct (H4 Hr) as (L1 & (M1 & M2 & M3) & L2 & L3 & _ & L5). destruct (vdata_len (i_vec x) l Hl) as [Hn Ha].
  destruct (Proof_Index.vdata_slice _ _ Hl) as (_ & _ & _ & Et).
  assert (Hy : vdata w = Done (take n (elems w))).
  { unfold vdata. change (valid_len w) with (len w). rewrite L1. rewrite (slice_Done (elems w) 0 n); [by rewrite Nat.sub_0_r, drop_0|lia|exact L2]. }
  split_and!.
  - exact L1.
  - intros i Hi Hil. unfold get_value. cbn [i_vec]. rewrite Hy, Hl, !bind_Done. unfold rd. rewrite lookup_take by done. rewrite L5, Et. change (valid_len (i_vec x)) with (len (i_vec x)).
    rewrite Hn, lookup_take by done. rewrite lookup_app_l; [done|]. change (length (elems (i_vec x))) with (alloc_len (i_vec x)). lia.
  - intros Hal. cbn [i_vec]. rewrite Hy. f_equal.
    assert (El : elems (i_vec x) = l). { rewrite Et. symmetry. apply take_ge. change (length (elems (i_vec x))) with (alloc_len (i_vec x)). change (valid_len (i_vec x)) with (len (i_vec x)). lia. }
    rewrite L5, El, Hal. destruct (Nat.le_gt_cases n (length l)) as [Hx|Hx].
    + rewrite (take_app_le l _ n Hx). replace (n - length l) with 0 by lia. cbn. by rewrite app_nil_r.
    + rewrite (take_ge (l ++ _)) by (rewrite app_length, replicate_length; lia). by rewrite (take_ge l) by lia.
  - exact M1.
  - unfold is_complex_code, is_complex. cbn [i_vec]. by rewrite M3.
  - unfold get_domain, vdomain. cbn [i_vec]. by rewrite M2.
Qed.
Print Assumptions C69_set_len.
(** An odd length of a complex vector is ignored, and the caller isn't told. *)
Theorem C69_set_len_refuted : forall {A} `{Num A} (x : ivec A) n, is_complex (i_vec x) = true -> Nat.odd n = true -> wf_storage (data (i_vec x)) -> set_len x n = x.
Proof.
  intros A HN [v b] n Hc Ho Hw. unfold set_len. cbn [i_vec i_buf] in *. destruct (Model_Vec.resize n0 v n) as [w r] eqn:E. cbn [fst].
  destruct (C02_resize n0 v w n r Hw E) as (H1 & _ & H3 & _). rewrite H3; [done|]. rewrite (proj2 H1 (conj Hc Ho)). discriminate.
Qed.
Print Assumptions C69_set_len_refuted.
Example C69_reads_example : let x := on_vec (NDyn true) (DDyn Frequency) [1; 2; 3; 4]%Z in cplx (i_vec x) [(1, 2); (3, 4)]%Z /\ get_points x = 2 /\ get_domain x = 1%Z /\
  get_value x 3 = Done 4%Z /\ set_len x 3 = x /\ get_len (set_len x 6) = 6 /\ (exists y, set_value x 1 9%Z = Done y /\ foreign_complex_data y = Done [(1, 9); (3, 4)]%Z).
Proof. split_and!; try (vm_compute; done). eexists. split; [vm_compute; reflexivity|]. done. Qed.

(** ** C69: new vectors with settings *)
Theorem C69_new_settings : forall {A} `{Num A} cal c d (init : A) n delta0 limit, plausible cal -> (c = 0%Z \/ Nat.even n = true) ->
  exists x s, new_with_performance_options cal c d init n delta0 limit = Done (x, s) /\ foreign_data x = Done (replicate n init) /\ get_delta x = delta0 /\
    (is_complex_code x = 0%Z <-> c = 0%Z) /\ (get_domain x = 0%Z <-> d = 0%Z) /\ core_limit s = Nat.max 1 limit /\ forall co, no_threads_for_nothing co s.
Proof.
  intros A HN cal c d init n dt limit Hp Hc. destruct (C40_new c d init n dt Hc) as (x & E & Hd & Hi & Hm & Hdt). unfold new_with_performance_options. rewrite E, bind_Done.
  destruct (C66_new cal limit Hp) as (_ & L1 & _ & _ & L2). exists x, (new_settings cal limit). split; [done|]. split_and!; try done.
  - exact (full_range _ _ Hd).
  - unfold is_complex_code. destruct (is_complex (i_vec x)); split; intros Hx; [discriminate|apply Hi in Hx; done| |done]. destruct (Z.eq_dec c 0%Z) as [|Hn]; [done|]. apply Hi in Hn. discriminate.
  - unfold get_domain. rewrite Hm. destruct (Z.eqb_spec d 0); split; done.
Qed.
Print Assumptions C69_new_settings.

(** ** C69: sums and statistics *)
(** The real functions compute with all numbers of the vector and the complex ones with all pairs, whatever the vector is declared as. [declared] only sets the
    declaration, for the condition about the address. *)
Theorem C69_sums : forall {A} `{Num A} `{Flt A} e op (x : ivec A) l, exact_ring A -> reg_ok (e_reg e) -> elem_aligned (e_reg e) (e_addr e 0) ->
  address_ok (e_reg e) (e_addr e 0) (declared false (i_vec x)) -> vdata (i_vec x) = Done l ->
  foreign_sum e op x = Done (sum_of nadd n0 (map (term (fun y => y * y)%num op) l)).
Proof. intros A HN HF e op x l. exact (sum_any e op x l). Qed.
Print Assumptions C69_sums.
Theorem C69_complex_sums : forall {A} `{Num A} `{Flt A} e op (x : ivec A) c, exact_ring A -> reg_ok (e_reg e) -> elem_aligned (e_reg e) (e_addr e 0) ->
  address_ok (e_reg e) (e_addr e 0) (declared true (i_vec x)) -> Nat.even (alloc_len (i_vec x)) = true -> vdata (i_vec x) = Done (complex_to_array c) ->
  foreign_complex_sum e op x = Done (sum_of complex_sum (n0, n0) (map (term (fun z => complex_product z z) op) c)).
Proof. intros A HN HF e op x c. exact (complex_sum_any e op x c). Qed.
Print Assumptions C69_complex_sums.
Theorem C69_statistics : forall {A} `{Num A} `{Flt A} e op (x : ivec A), exact_ring A ->
  (forall l, zero_neutral A -> vdata (i_vec x) = Done l ->
    (l = [] -> foreign_statistics e op x = Done stats_invalid) /\
    (l <> [] -> exists st, foreign_statistics e op x = Done st /\ totals_of l st /\ (comparable l -> statistics_of l st))) /\
  (forall c, zero_neutral (A * A) -> vdata (i_vec x) = Done (complex_to_array c) ->
    (c = [] -> foreign_complex_statistics e op x = Done stats_invalid) /\
    (c <> [] -> exists st, foreign_complex_statistics e op x = Done st /\ totals_of c st /\ (comparable c -> statistics_of c st))).
Proof. intros A HN HF e op x HE. split; [intros l Hz Hl; exact (stat_any e op x l HE Hz Hl)|intros c Hz Hl; exact (complex_stat_any e op x c HE Hz Hl)]. Qed.
Print Assumptions C69_statistics.
(** More than 16 parts: error 7. An empty vector: nothing is written, and the code is 0. *)
Theorem C69_split : forall {A} `{Num A} `{Flt A} e op (x : ivec A) l d, exact_ring A -> zero_neutral A -> vdata (i_vec x) = Done l ->
  (16 < length d -> foreign_split e op x d = Done (d, 7%Z)) /\
  (0 < length d <= 16 -> l <> [] -> exists sts, foreign_split e op x d = Done (sts, 0%Z) /\ length sts = length d /\
     forall b, b < length d -> exists lb st, is_bucket (length d) b l lb /\ sts !! b = Some st /\ totals_of lb st /\ (comparable l -> statistics_of lb st)) /\
  (0 < length d <= 16 -> l = [] -> foreign_split e op x d = Done (d, 0%Z)).
Proof. intros A HN HF e op x l d. exact (split_any e op x l d). Qed.
Print Assumptions C69_split.
Theorem C69_complex_split : forall {A} `{Num A} `{Flt A} e op (x : ivec A) c d, exact_ring A -> zero_neutral (A * A) -> vdata (i_vec x) = Done (complex_to_array c) ->
  (16 < length d -> foreign_complex_split e op x d = Done (d, 7%Z)) /\
  (0 < length d <= 16 -> c <> [] -> exists sts, foreign_complex_split e op x d = Done (sts, 0%Z) /\ length sts = length d /\
     forall b, b < length d -> exists lb st, is_bucket (length d) b c lb /\ sts !! b = Some st /\ totals_of lb st /\ (comparable c -> statistics_of lb st)) /\
  (0 < length d <= 16 -> c = [] -> foreign_complex_split e op x d = Done (d, 0%Z)).
Proof. intros A HN HF e op x c d. exact (complex_split_any e op x c d). Qed.
Print Assumptions C69_complex_split.
Theorem C69_aggregate : forall {A} `{Num A} `{IsNan A} {R} e (null : R) g (x : ivec A), alloc_len (i_vec x) = len (i_vec x) -> is_erroneous (i_vec x) = false ->
  (forall f l, reals (i_vec x) l -> l <> [] -> exists y, combine_all g (imap (fun i y => f y i) l) = Ok y /\ foreign_aggregate e null f g x = Done (y, 0%Z)) /\
  (forall f c, cplx (i_vec x) c -> c <> [] -> exists y, combine_all g (imap (fun i y => f y i) c) = Ok y /\ foreign_complex_aggregate e null f g x = Done (y, 0%Z)).
Proof. intros A HN HI R e null g x Ha He. split; [intros f l Hl Hne; exact (aggregate_any e null f g x l Hl Ha Hne He)|intros f c Hc Hne; exact (complex_aggregate_any e null f g x c Hc Ha Hne He)]. Qed.
Print Assumptions C69_aggregate.
Theorem C69_aggregate_errors : forall {A} `{Num A} `{IsNan A} {R} e (null : R) (x : ivec A) f fc g,
  (is_complex (i_vec x) = true -> foreign_aggregate e null f g x = Done (null, 4%Z)) /\ (is_complex (i_vec x) = false -> foreign_complex_aggregate e null fc g x = Done (null, 3%Z)) /\
  (is_complex (i_vec x) = false -> elems (i_vec x) = [] -> foreign_aggregate e null f g x = Done (null, 12%Z)) /\
  (is_complex (i_vec x) = true -> elems (i_vec x) = [] -> foreign_complex_aggregate e null fc g x = Done (null, 12%Z)).
Proof. intros A HN HI R e null x f fc g. exact (aggregate_wrong e null x f fc g). Qed.
Print Assumptions C69_aggregate_errors.
(** Unlike the dot products and the aggregations, the sums and the statistics don't reject a vector of the other number space: [real_sum64] of a complex vector is the
    sum of all real and imaginary parts, without an error. *)
Theorem C69_wrong_space_refuted : forall {A} `{Num A} `{Flt A} `{IsNan A} e op (x : ivec A) c, exact_ring A -> reg_ok (e_reg e) -> elem_aligned (e_reg e) (e_addr e 0) ->
  address_ok (e_reg e) (e_addr e 0) (i_vec x) -> cplx (i_vec x) c ->
  foreign_sum e op x = Done (sum_of nadd n0 (map (term (fun y => y * y)%num op) (complex_to_array c))) /\
  foreign_dot e Dot_product x x = Done (n0, 4%Z).
Proof.
  intros A HN HF HI e op x c HE Hr He Ha [Hb Hl]. split.
  - apply (sum_any e op x _ HE Hr He); [|exact Hl]. destruct Ha as [[Ha _]|Ha]; [left; split; [exact Ha|done]|by right].
  - unfold foreign_dot, convert_scalar. cbn [vec_dot_op]. rewrite (proj1 (Props_Stats.C45_rejects (e_reg e) (e_addr e 0) (e_set e) (e_sched e 0 0) (i_vec x) (i_vec x)) Hb). done.
Qed.
Print Assumptions C69_wrong_space_refuted.
Local Instance Znan_fo : IsNan Z := fun x => (x =? nnan)%Z.
Example C69_numbers_example : let x := on_vec (NDyn true) (DDyn Time) [1; 2; 3; 4]%Z in
  foreign_complex_sum alone Sum x = Done (4, 6)%Z /\ foreign_complex_sum alone Sum_sq_prec x = Done (-10, 28)%Z /\ foreign_sum alone Sum x = Done 10%Z /\
  foreign_complex_aggregate alone 0%Z (fun z i => fst z * snd z)%Z Z.max x = Done (12, 0)%Z /\ foreign_aggregate alone 0%Z (fun z i => z) Z.max x = Done (0, 4)%Z /\
  exact_ring Z /\ reg_ok (e_reg alone) /\ elem_aligned (e_reg alone) (e_addr alone 0) /\ address_ok (e_reg alone) (e_addr alone 0) (declared true (i_vec x)).
Proof. split_and!; try exact Z_exact; try (vm_compute; done).
  - vm_compute. split_and!; done || lia.
  - left. split; [vm_compute; done|]. intros _. vm_compute. done.
Qed.

(** ** C70: the life of the vectors *)
(** A client which uses only vectors it holds, none twice in a call if it is handed over or changed, and which takes every argument of type [Box] as gone, never
    causes undefined behaviour ... *)
Theorem C70_no_dangling : forall {A} `{Num A} `{Flt A} `{Rem A} `{Trig A} `{Math A} `{F : Fft A} `{RA : Rounding A} `{IsNan A} e fits (m : gmap nat (ivec A)) held q fresh m' held',
  dom m = held -> life e fits m held m' held' -> proper held' q -> serve e fits fresh m' q <> Undefined.
Proof. intros A ? ? ? ? ? ? ? ? e fits m held q fresh m' held' Hd Hl Hp. exact (serve_defined e fits fresh m' held' q (life_held e fits m held m' held' Hl Hd) Hp). Qed.
Print Assumptions C70_no_dangling.
(** ... and what lives is exactly what it holds: nothing is lost, and if it holds nothing then no memory is in use. *)
Theorem C70_no_leaks : forall {A} `{Num A} `{Flt A} `{Rem A} `{Trig A} `{Math A} `{F : Fft A} `{RA : Rounding A} `{IsNan A} e fits (m : gmap nat (ivec A)) held m' held',
  dom m = held -> life e fits m held m' held' -> dom m' = held' /\ (held' = ∅ -> m' = ∅).
Proof.
  intros A ? ? ? ? ? ? ? ? e fits m held m' held' Hd Hl. pose proof (life_held e fits m held m' held' Hl Hd) as E. split; [exact E|]. intros ->. by apply dom_empty_inv_L.
Qed.
Print Assumptions C70_no_leaks.
(** The functions which return a vector do so, at an address where no other vector lives. *)
Theorem C70_returned : forall {A} `{Num A} `{Flt A} `{Rem A} `{Trig A} `{Math A} `{F : Fft A} `{RA : Rounding A} `{IsNan A} e fits (m : gmap nat (ivec A)) held q fresh m' r,
  dom m = held -> proper held q -> unused m q fresh -> serve e fits fresh m q = Served m' r ->
  (r <> None <-> returns_vector q) /\ (forall h, r = Some h -> h ∈ handed_over q \/ m !! h = None) /\ (forall h, h ∈ handed_over q -> r <> Some h -> m' !! h = None).
Proof.
  intros A ? ? ? ? ? ? ? ? e fits m held q fresh m' r Hd Hp Hu Hs. split; [exact (proj2 (serve_held e fits fresh m held q m' r Hd Hp Hs))|].
  split; [exact (serve_fresh e fits fresh m q m' r Hu Hs)|]. intros h. exact (serve_gone e fits fresh m q m' r h Hs).
Qed.
Print Assumptions C70_returned.
(** No function changes a vector which isn't an argument for that. *)
Theorem C70_others : forall {A} `{Num A} `{Flt A} `{Rem A} `{Trig A} `{Math A} `{F : Fft A} `{RA : Rounding A} `{IsNan A} e fits (m : gmap nat (ivec A)) q fresh m' r h,
  unused m q fresh -> serve e fits fresh m q = Served m' r -> h ∉ handed_over q -> h ∉ changed_by q -> m !! h <> None -> m' !! h = m !! h.
Proof.
  intros A ? ? ? ? ? ? ? ? e fits m q fresh m' r h Hu Hs G1 G2 Hl. apply (serve_frame e fits fresh m q m' r h Hs G1 G2). intros Hr.
  destruct (serve_fresh e fits fresh m q m' r Hu Hs h Hr); done.
Qed.
Print Assumptions C70_others.
(** What a function stores is what the method computes from the stored vectors (C40, C65). *)
Theorem C70_call : forall {A} `{Num A} `{Flt A} `{Rem A} `{Trig A} `{Math A} `{F : Fft A} `{RA : Rounding A} `{IsNan A} e fits (m : gmap nat (ivec A)) h refs c fresh m' r,
  serve e fits fresh m (R_call h refs c) = Served m' r <->
  exists x l y code, (forall k, k ∈ refs -> k <> h) /\ m !! h = Some x /\ fetch m refs = Some l /\ foreign_call e fits (c l) x = Done (y, code) /\
    m' = <[fresh := y]> (delete h m) /\ r = Some fresh.
Proof. intros A ? ? ? ? ? ? ? ? e fits m h refs c fresh m' r. exact (serve_call e fits fresh m h refs c m' r). Qed.
Print Assumptions C70_call.
(** A handle which isn't alive must not be used: also not for a second deletion. *)
Theorem C70_dangling : forall {A} `{Num A} `{Flt A} `{Rem A} `{Trig A} `{Math A} `{F : Fft A} `{RA : Rounding A} `{IsNan A} e fits (m : gmap nat (ivec A)) q fresh h,
  m !! h = None -> h ∈ handed_over q \/ h ∈ changed_by q \/ h ∈ looked_at q -> serve e fits fresh m q = Undefined.
Proof. intros A ? ? ? ? ? ? ? ? e fits m q fresh h. exact (serve_dangling e fits fresh m q h). Qed.
Print Assumptions C70_dangling.
(** [clone64] doesn't leave two vectors: it takes a [Box], so the original is freed and its handle is dead. *)
Theorem C70_clone_refuted : forall {A} `{Num A} `{Flt A} `{Rem A} `{Trig A} `{Math A} `{F : Fft A} `{RA : Rounding A} `{IsNan A} e fits (m : gmap nat (ivec A)) h fresh m' r,
  unused m (R_clone h) fresh -> serve e fits fresh m (R_clone h) = Served m' r ->
  exists x, m !! h = Some x /\ r = Some fresh /\ m' !! fresh = Some (IVec (i_vec x) (SingleBuffer [])) /\ size m' = size m /\
    (fresh <> h -> forall again, serve e fits again m' (R_delete h) = Undefined /\ serve e fits again m' (R_read [h]) = Undefined).
Proof.
  intros A ? ? ? ? ? ? ? ? e fits m h fresh m' r Hu Hs. destruct (serve_clone e fits fresh m h m' r Hu Hs) as (x & E1 & E2 & E3 & E4 & E5). exists x. split_and!; try done.
  intros Hf again. split; apply (serve_dangling e fits again m' _ h (E5 Hf)); cbn; [left|right; right]; left.
Qed.
Print Assumptions C70_clone_refuted.
(** [get_real64], [get_phase64] etc. free the vector they read. *)
Theorem C70_getter_refuted : forall {A} `{Num A} `{Flt A} `{Rem A} `{Trig A} `{Math A} `{F : Fft A} `{RA : Rounding A} `{IsNan A} e fits (m : gmap nat (ivec A)) op h d fresh m' r,
  serve e fits fresh m (R_getter op h d) = Served m' r ->
  exists x dst w code, m !! h = Some x /\ m !! d = Some dst /\ foreign_getter e op x dst = Done (w, code) /\ r = None /\ m' !! d = Some w /\ S (size m') = size m /\
    forall again, serve e fits again m' (R_getter op h d) = Undefined.
Proof.
  intros A ? ? ? ? ? ? ? ? e fits m op h d fresh m' r Hs. destruct (serve_getter e fits fresh m op h d m' r Hs) as (x & dst & w & code & E1 & E2 & E3 & E4 & E5 & E6 & E7).
  exists x, dst, w, code. split_and!; try done. intros again. apply (serve_dangling e fits again m' _ h E6). left. left.
Qed.
Print Assumptions C70_getter_refuted.

Local Instance Zmath_fo : Math Z := {| rmath := fun f x => match f with Tan => x * 10 | Atan => x + 1 | _ => x end%Z; cmath := fun _ x => x; rpowf := Z.pow;
  cpowf := fun x _ => x; rlog := fun x _ => x; clog := fun x _ => x; cexpf := fun x _ => x |}.
Local Instance Zfft_fo : Fft Z := {| fft_forward := fun c => c; fft_inverse := fun c => c; fft_rest := fun c => c; fft_inplace_scratch_len := fun _ => 0;
  fft_outofplace_scratch_len := fun _ => 0 |}.
Local Instance Zrounding_fo : Rounding Z := {| fround := fun x => x; ffloor := fun x => x; fceil := fun x => x; to_usize := fun x => Some (Z.to_nat x);
  to_isize := fun x => Some x; as_usize := Z.to_nat |}.
Lemma exchanged {A} a (q : request A) r : handed_over q = [a] -> held_after {[a]} q r = match r with Some b => {[b]} | None => ∅ end.
Proof.
  intros Hq. unfold held_after. rewrite Hq. apply set_eq. intros k. rewrite elem_of_union, elem_of_difference, elem_of_list_to_set, elem_of_list_singleton, elem_of_singleton.
  tauto.
Qed.
(** Two vectors are made, one is added to the other, the sum is cloned and scaled, and everything is deleted. *)
Example C70_example : let add (l : list (ivec Z)) := match l with [o] => F_binary Model_MatOps.Add o | _ => F_inplace Conj end in
  let add' (l : list (ivec Z)) : foreign Z := add l in let scale' (_ : list (ivec Z)) : foreign Z := F_inplace (Scale 3%Z) in
  exists m, serve alone (fun _ => true) 7 ∅ (R_new 0 0 5%Z 3 1%Z) = Served m (Some 7) /\ (exists m', life alone (fun _ => true) m {[7]} m' ∅ /\ m' = ∅) /\ dom m = ({[7]} : gset nat) /\
  exists m2 m3 y, serve alone (fun _ => true) 8 m (R_new 0 0 2%Z 3 1%Z) = Served m2 (Some 8) /\ serve alone (fun _ => true) 9 m2 (R_call 7 [8] add') = Served m3 (Some 9) /\
    m3 !! 9 = Some y /\ reals (i_vec y) [7; 7; 7]%Z /\ serve alone (fun _ => true) 9 m3 (R_call 7 [] scale') = Undefined /\ serve alone (fun _ => true) 9 m2 (R_call 7 [7] add') = Undefined.
Proof.
  intros add add' scale'. exists {[7 := on_vec (NDyn false) (DDyn Time) [5; 5; 5]%Z]}. split; [vm_compute; reflexivity|]. split; [|split; [apply dom_singleton_L|]].
  - refine ((fun L => ex_intro _ (delete 3 (<[3 := on_vec (NDyn false) (DDyn Time) [5; 5; 5]%Z]> (delete 7 {[7 := on_vec (NDyn false) (DDyn Time) [5; 5; 5]%Z]}))) (conj L (proj2 (C70_no_leaks alone (fun _ => true) _ _ _ _ (dom_singleton_L _ _) L) eq_refl))) _).
    apply (life_cons _ _ _ _ (R_clone 7) 3 (<[3 := on_vec (NDyn false) (DDyn Time) [5; 5; 5]%Z]> (delete 7 {[7 := on_vec (NDyn false) (DDyn Time) [5; 5; 5]%Z]})) (Some 3)); [|left; vm_compute; reflexivity|vm_compute; reflexivity|].
    { split_and!; cbn; [intros h [Hh|[Hh|Hh]]|apply NoDup_singleton|intros h Hh]; try (by apply elem_of_nil in Hh). apply elem_of_list_singleton in Hh as ->. by apply elem_of_singleton. }
    rewrite (exchanged 7) by done.
    apply (life_cons _ _ _ _ (R_delete 3) 0 (delete 3 (<[3 := on_vec (NDyn false) (DDyn Time) [5; 5; 5]%Z]> (delete 7 {[7 := on_vec (NDyn false) (DDyn Time) [5; 5; 5]%Z]}))) None); [|left; vm_compute; reflexivity|vm_compute; reflexivity|].
    { split_and!; cbn; [intros h [Hh|[Hh|Hh]]|apply NoDup_singleton|intros h Hh]; try (by apply elem_of_nil in Hh). apply elem_of_list_singleton in Hh as ->. by apply elem_of_singleton. }
    rewrite (exchanged 3) by done. apply life_nil.
  - eexists _, _, _. split; [vm_compute; reflexivity|]. split; [vm_compute; reflexivity|]. split; [vm_compute; reflexivity|]. split_and!; vm_compute; done.
Qed.
