(** C12, C19 to C22, C41, C45: sums, statistics, mapping and dot products. *)
From Verif Require Import NumsFlt Proof_Sum Proof_Stats Proof_StatsOps Proof_Dot Proof_Map Proof_OutsideStats Spec_Stats Model_Chunk.
Local Open Scope nat_scope.

Definition ex_real (l : list Z) : dvec Z := DVec (Storage KVec (length l) l) 1%Z DTime NReal (length l).
Definition ex_cplx (l : list Z) : dvec Z := DVec (Storage KVec (length l) l) 1%Z DTime NComplex (length l).
(** with spare elements behind the valid ones *)
Definition ex_spare (ns : nspace) (l spare : list Z) : dvec Z := DVec (Storage KVec (length (l ++ spare)) (l ++ spare)) 1%Z DTime ns (length l).
Definition ex_set : settings := with_thresholds 4 2 3 2 3.

(** * C12 cum_sum undoes diff_with_start *)

Theorem C12_cum_sum : forall {A} `{Num A}, exact_ring A -> forall (v : dvec A),
  (forall l, reals v l -> exists v' l', cum_sum v = Done v' /\ reals v' l' /\ same_meta v v' /\ same_rest v v' /\
     prefix_sums nadd n0 l l') /\
  (forall c, cplx v c -> exists v' c', cum_sum v = Done v' /\ cplx v' c' /\ same_meta v v' /\ same_rest v v' /\
     prefix_sums complex_sum (n0, n0) c c').
Proof. exact @cum_sum_spec. Qed.
Print Assumptions C12_cum_sum.

Theorem C12_cum_sum_undoes_diff_with_start : forall {A} `{Num A}, exact_ring A -> forall (v : dvec A), wf v -> whole_points v ->
  exists v1 v2, diff_with_start v = Done v1 /\ cum_sum v1 = Done v2 /\ vdata v2 = vdata v /\ same_meta v v2 /\ same_rest v v2.
Proof. exact @cum_sum_undoes_diff. Qed.
Print Assumptions C12_cum_sum_undoes_diff_with_start.

Theorem C12_diff : forall {A} `{Num A} (v : dvec A),
  (forall l, reals v l -> l <> [] -> exists v' l', diff v = Done v' /\ reals v' l' /\ same_meta v v' /\ differences nsub l l') /\
  (forall c, cplx v c -> c <> [] -> whole_points v ->
     exists v' c', diff v = Done v' /\ cplx v' c' /\ same_meta v v' /\ differences complex_difference c c').
Proof. intros A HA v. split; intros; [by apply diff_real | by apply diff_cplx]. Qed.
Print Assumptions C12_diff.

Theorem C12_diff_with_start : forall {A} `{Num A} (v : dvec A),
  (forall l, reals v l -> exists v' l', diff_with_start v = Done v' /\ reals v' l' /\ same_meta v v' /\ same_rest v v' /\
     differences_with_start nsub l l') /\
  (forall c, cplx v c -> whole_points v -> exists v' c', diff_with_start v = Done v' /\ cplx v' c' /\ same_meta v v' /\ same_rest v v' /\
     differences_with_start complex_difference c c').
Proof. intros A HA v. split; intros; [by apply diff_with_start_real | by apply diff_with_start_cplx]. Qed.
Print Assumptions C12_diff_with_start.

(** The differences of an empty vector are not the empty vector: the call panics. *)
Theorem C12_diff_empty_refuted : forall {A} `{Num A} (v : dvec A), len v = 0 -> diff v = Panicked.
Proof. exact @diff_empty. Qed.
Print Assumptions C12_diff_empty_refuted.
(** A complex vector whose storage has an odd number of elements can't be processed. *)
Theorem C12_odd_storage_refuted : forall {A} `{Num A} (v : dvec A), is_complex v = true -> ~ whole_points v ->
  diff v = Panicked /\ (len v <> 0 -> diff_with_start v = Panicked).
Proof. intros A HA v Hc Hw. split; [by apply diff_odd_storage | by apply diff_with_start_odd_storage]. Qed.
Print Assumptions C12_odd_storage_refuted.

Example C12_ex_odd_storage : let v := ex_spare NComplex [1; 2; 3; 4]%Z [0%Z] in wf v /\ is_complex v = true /\ ~ whole_points v /\ len v <> 0.
Proof. split_and!; try done; [vm_compute; split_and!; done || lia | intros Hw; by specialize (Hw eq_refl)]. Qed.
Example C12_ex_cum_sum : cum_sum (ex_real [1; 2; 3; 4]%Z) = Done (ex_real [1; 3; 6; 10]%Z).
Proof. reflexivity. Qed.
Example C12_ex_diff_cplx : diff_with_start (ex_cplx [1; 2; 5; 7; 6; 6]%Z) = Done (ex_cplx [1; 2; 4; 5; 1; -1]%Z).
Proof. reflexivity. Qed.
Example C12_ex_hypotheses : wf (ex_cplx [1; 2; 5; 7; 6; 6]%Z) /\ whole_points (ex_cplx [1; 2; 5; 7; 6; 6]%Z) /\ exact_ring Z /\
  cplx (ex_cplx [1; 2; 5; 7; 6; 6]%Z) [(1, 2); (5, 7); (6, 6)]%Z.
Proof. split_and!; try done; try exact Z_exact; vm_compute; split_and!; done || lia. Qed.

(** * C19 Statistics are the statistics of the data *)

(** Sums are added from the left to the right, so this holds for floating point numbers as well. *)
Theorem C19_statistics_real : forall {A} `{Num A} `{Flt A} s order (v : dvec A) l, reals v l -> zero_neutral A ->
  (l = [] -> vstatistics s order v = Done stats_invalid) /\
  (l <> [] -> exists st, vstatistics s order v = Done st /\ totals_of l st /\ (comparable l -> statistics_of l st)).
Proof. intros A HA HF s order v l [_ Hv]. by apply vstatistics_spec. Qed.
Print Assumptions C19_statistics_real.

Theorem C19_statistics_complex : forall {A} `{Num A} `{Flt A} s order (v : dvec A) c, cplx v c -> zero_neutral (A * A) ->
  (c = [] -> vstatistics_complex s order v = Done stats_invalid) /\
  (c <> [] -> exists st, vstatistics_complex s order v = Done st /\ totals_of c st /\ (comparable c -> statistics_of c st)).
Proof. intros A HA HF s order v c [_ Hv]. by apply vstatistics_complex_spec. Qed.
Print Assumptions C19_statistics_complex.

(** The statistics of the empty vector: no elements, the averages are not a number *)
Theorem C19_empty : forall {P} `{StatOps P}, st_count (stats_invalid (P := P)) = 0 /\ st_sum (stats_invalid (P := P)) = t_zero /\
  st_average (stats_invalid (P := P)) = t_nan /\ st_rms (stats_invalid (P := P)) = t_nan.
Proof. done. Qed.
Print Assumptions C19_empty.

Theorem C19_sum : forall {A} `{Num A} `{Flt A}, exact_ring A -> forall r addr s order (v : dvec A) l,
  reg_ok r -> elem_aligned r addr -> reals v l -> address_ok r addr v ->
  vsum r addr s order v = Done (sum_of nadd n0 l) /\
  vsum_sq r addr s order v = Done (sum_of nadd n0 (map (fun x => x * x)%num l)).
Proof.
  intros A HA HF R r addr s order v l Hr Ha [Hc Hv] Hok. pose proof (address_ok_real _ _ _ _ Hv Hok) as Hf. split.
  - unfold vsum. rewrite (simd_sum_spec R _ (fun x => x) _ _ _ _ v l) by (done || by intros; rewrite map_id). by rewrite map_id.
  - apply (simd_sum_spec R); try done. intros b. unfold reg_bin. clear. induction b as [|x b IH]; [done|]. cbn [zip_with map]. by rewrite IH.
Qed.
Print Assumptions C19_sum.

Theorem C19_sum_complex : forall {A} `{Num A} `{Flt A}, exact_ring A -> forall r addr s order (v : dvec A) c,
  reg_ok r -> elem_aligned r addr -> cplx v c -> whole_points v -> address_ok r addr v ->
  vsum_complex r addr s order v = Done (sum_of complex_sum (n0, n0) c) /\
  vsum_sq_complex r addr s order v = Done (sum_of complex_sum (n0, n0) (map (fun x => complex_product x x) c)).
Proof.
  intros A HA HF R r addr s order v c Hr Ha Hv Hw Hok. split.
  - unfold vsum_complex. rewrite (simd_sum_complex_spec R _ (fun x => x) _ _ _ _ v c); [by rewrite map_id | done..|].
    intros b Hb. by rewrite map_id, complex_to_array_pairs_of.
  - apply (simd_sum_complex_spec R); try done. intros b _. unfold reg_cbin. f_equal. generalize (pairs_of b). clear.
    induction l as [|x l IH]; [done|]. cbn [zip_with map]. by rewrite IH.
Qed.
Print Assumptions C19_sum_complex.

Example C19_ex : exists st, vstatistics ex_set [] (ex_real [5; 3; 9; 3; 9]%Z) = Done st /\ statistics_of [5; 3; 9; 3; 9]%Z st /\
  st_min_index st = 1 /\ st_max_index st = 2 /\ st_sum st = 29%Z.
Proof. eexists. split; [vm_compute; reflexivity|]. split_and!; try done. split; [by vm_compute|]. intros _.
  split; (split; [done|]); intros j y Hj; do 5 (destruct j as [|j]; [injection Hj as <-; split; [done | intros Hlt; first [done | vm_compute in Hlt; lia]]|]); done. Qed.
Example C19_ex_hypotheses : zero_neutral Z /\ zero_neutral (Z * Z) /\ comparable [5; 3; 9; 3; 9]%Z /\ comparable [(1, 2); (0, 0)]%Z.
Proof.
  split_and!; try done.
  - by intros [x y].
  - split.
    + split_and!; intros; cbn in *; rewrite ?Z.ltb_lt, ?Z.ltb_ge, ?Z.ltb_irrefl in *; done || lia.
    + intros x Hx. repeat (apply elem_of_cons in Hx as [->|Hx]; [vm_compute; auto|]). by apply elem_of_nil in Hx.
  - split.
    + split_and!; intros; unfold t_lt in *; cbn [complex_stats nltb Znum] in *; rewrite ?Z.ltb_lt, ?Z.ltb_ge, ?Z.ltb_irrefl in *; done || lia.
    + intros x Hx. repeat (apply elem_of_cons in Hx as [->|Hx]; [vm_compute; auto|]). by apply elem_of_nil in Hx.
Qed.
Example C19_ex_sum : vsum f64x2 8 ex_set [] (ex_real [1; 2; 3; 4; 5; 6]%Z) = Done 21%Z /\
  vsum_sq_complex f32x4 8 ex_set [] (ex_cplx [1; 2; 3; 4; 5; 6; 1; 1]%Z) = Done (-21, 90)%Z /\
  address_ok f32x4 8 (ex_cplx [1; 2; 3; 4; 5; 6; 1; 1]%Z).
Proof. split_and!; [reflexivity | reflexivity | left; split; [done|]; intros; done]. Qed.

(** * C20 Merging statistics *)

(** Proved for parts in any order of arrival: sum, count, average, root mean square, the value of the maximum and a position of it. The minimum is right if no
    part has a greater maximum than the part that arrives first. Missing from the full property: the minimum in all other cases and the first
    position of the extremes, which the code gets wrong (refuted below). The library itself never splits statistics (C19). *)
Theorem C20_merge : forall {P} `{StatOps P} (l : list P) pieces ranges sts,
  (forall a b c : P, t_add a (t_add b c) = t_add (t_add a b) c) -> (forall a b : P, t_add a b = t_add b a) -> zero_neutral P ->
  l <> [] -> tiles l 1 pieces ranges -> sts ≡ₚ zip_with (fun p r => stats_worker (fst r) p) pieces ranges -> comparable l ->
  let st := stats_merge sts in
  totals_of l st /\ some_max t_lt l (st_max_index st) (st_max st) /\
  ((forall first rest, sts = first :: rest -> forall part, part ∈ rest -> t_lt (st_max first) (st_max part) = false) ->
   some_min t_lt l (st_min_index st) (st_min st)).
Proof.
  intros P HP l pieces ranges sts H1 H2 H3 H4 H5 H6 H7. destruct (merge_any_order l pieces ranges sts H1 H2 H3 H4 H5 H6 H7) as (? & ? & ? & _). done.
Qed.
Print Assumptions C20_merge.

(** In general the minimum is the one of the parts which count: the first one, and those whose maximum doesn't exceed the one of an earlier part. *)
Theorem C20_minimum : forall {P} `{StatOps P} (l : list P) pieces ranges sts,
  (forall a b c : P, t_add a (t_add b c) = t_add (t_add a b) c) -> (forall a b : P, t_add a b = t_add b a) -> zero_neutral P ->
  l <> [] -> tiles l 1 pieces ranges -> sts ≡ₚ zip_with (fun p r => stats_worker (fst r) p) pieces ranges -> comparable l ->
  let st := stats_merge sts in
  (exists i part, takes_part sts i part /\ st_min st = st_min part /\ st_min_index st = st_min_index part) /\
  (forall i part, takes_part sts i part -> t_lt (st_min part) (st_min st) = false).
Proof.
  intros P HP l pieces ranges sts H1 H2 H3 H4 H5 H6 H7. destruct (merge_any_order l pieces ranges sts H1 H2 H3 H4 H5 H6 H7) as (_ & _ & _ & ? & ?). done.
Qed.
Print Assumptions C20_minimum.
Example C20_ex_counted : let parts := [stats_worker 0 [5; 7]%Z; stats_worker 2 [1; 9]%Z; stats_worker 4 [2; 8]%Z] in
  (exists part, takes_part parts 2 part /\ st_min (stats_merge parts) = st_min part) /\ (forall part, ~ takes_part parts 1 part).
Proof.
  split.
  - eexists. split; [split; [reflexivity | right; exists 1; eexists; split_and!; [lia | reflexivity | reflexivity]] | reflexivity].
  - intros part [Hp [?|(j & e & Hj & He & Hlt)]]; [done|]. injection Hp as <-. destruct j as [|j]; [|lia]. injection He as <-. done.
Qed.

(** A part that raises the maximum can't lower the minimum ([else if]): the minimum of 5, 1, 9 becomes 5. *)
Theorem C20_lost_minimum_refuted : exists (p1 p2 : list Z),
  let st := stats_merge [stats_worker 0 p1; stats_worker (length p1) p2] in
  p1 ++ p2 = [5; 1; 9]%Z /\ st_min st = 5%Z /\ ~ some_min t_lt (p1 ++ p2) (st_min_index st) (st_min st).
Proof. exists [5]%Z, [1; 9]%Z. split_and!; try done. intros [_ Hm]. by specialize (Hm 1 1%Z eq_refl). Qed.
Print Assumptions C20_lost_minimum_refuted.

(** With equal maxima the position depends on the order of arrival. *)
Theorem C20_first_position_refuted : exists (p1 p2 : list Z),
  let st := stats_merge [stats_worker (length p1) p2; stats_worker 0 p1] in
  p1 ++ p2 = [7; 7]%Z /\ st_max_index st = 1 /\ ~ first_max t_lt (p1 ++ p2) (st_max_index st) (st_max st).
Proof. exists [7]%Z, [7]%Z. split_and!; try done. intros [_ Hm]. destruct (Hm 0 7%Z eq_refl) as [_ Hf]. by specialize (Hf (le_n _)). Qed.
Print Assumptions C20_first_position_refuted.

(** Merging statistics as the API returns them (not the sums inside of the workers) takes the root mean square for a sum of squares. *)
Theorem C20_merge_finished_refuted : exists (s1 s2 : statistics Z),
  vstatistics ex_set [] (ex_real [10; 10]%Z) = Done s1 /\ vstatistics ex_set [] (ex_real [10; 10]%Z) = Done s2 /\
  st_rms s1 = 10%Z /\ st_rms (stats_merge [s1; s2]) = 2%Z /\ ~ totals_of [10; 10; 10; 10]%Z (stats_merge [s1; s2]).
Proof. eexists _, _. split_and!; try (vm_compute; reflexivity). intros (_ & _ & _ & Hr). vm_compute in Hr. done. Qed.
Print Assumptions C20_merge_finished_refuted.

Example C20_ex : let pieces := [[5; 7]; [1; 6]; [9]]%Z in let ranges := [(0, 2); (2, 4); (4, 5)] in
  tiles [5; 7; 1; 6; 9]%Z 1 pieces ranges /\
  (let st := stats_merge [stats_worker 4 [9]%Z; stats_worker 0 [5; 7]%Z; stats_worker 2 [1; 6]%Z] in
    st_sum st = 28%Z /\ st_count st = 5 /\ st_max_index st = 4 /\ st_min_index st = 2).
Proof.
  split; [|by vm_compute]. split_and!; try done; [by exists 2 | |].
  - intros i s e Hi. do 3 (destruct i as [|i]; [injection Hi as <- <-; vm_compute; split_and!; done || lia|]). done.
  - intros i s e s' e' Hi Hj. do 3 (destruct i as [|i]; [injection Hi as <- <-; vm_compute in Hj; congruence|]). done.
Qed.

(** * C21 statistics_split buckets by index *)

Theorem C21_split_real : forall {A} `{Num A} `{Flt A} s order (v : dvec A) k l, reals v l -> zero_neutral A ->
  let r := vstatistics_split s order v k in
  (k = 0 -> r = Done (Ok [])) /\ (16 < k -> r = Done (Err InvalidArgumentLength)) /\
  (0 < k <= 16 -> l <> [] -> exists sts, r = Done (Ok sts) /\ length sts = k /\
     forall b, b < k -> exists lb st, is_bucket k b l lb /\ sts !! b = Some st /\ totals_of lb st /\ (comparable l -> statistics_of lb st)).
Proof. intros A HA HF s order v k l [_ Hv] Hz r. destruct (vstatistics_split_spec s order v k l Hv Hz) as (H1 & H2 & H3 & H4). done. Qed.
Print Assumptions C21_split_real.

Theorem C21_split_complex : forall {A} `{Num A} `{Flt A} s order (v : dvec A) k c, cplx v c -> zero_neutral (A * A) ->
  let r := vstatistics_split_complex s order v k in
  (k = 0 -> r = Done (Ok [])) /\ (16 < k -> r = Done (Err InvalidArgumentLength)) /\
  (0 < k <= 16 -> c <> [] -> exists sts, r = Done (Ok sts) /\ length sts = k /\
     forall b, b < k -> exists lb st, is_bucket k b c lb /\ sts !! b = Some st /\ totals_of lb st /\ (comparable c -> statistics_of lb st)).
Proof. intros A HA HF s order v k l [_ Hv] Hz r. destruct (vstatistics_split_complex_spec s order v k l Hv Hz) as (H1 & H2 & H3 & H4). done. Qed.
Print Assumptions C21_split_complex.

(** For an empty vector no statistics at all are returned instead of [k]. *)
Theorem C21_split_empty_refuted : forall {A} `{Num A} `{Flt A} s order (v : dvec A) k,
  (reals v [] -> zero_neutral A -> 0 < k <= 16 -> vstatistics_split s order v k = Done (Ok [])) /\
  (cplx v [] -> zero_neutral (A * A) -> 0 < k <= 16 -> vstatistics_split_complex s order v k = Done (Ok [])).
Proof.
  intros A HA HF s order v k. split; intros [_ Hv] Hz Hk.
  - destruct (vstatistics_split_spec s order v k [] Hv Hz) as (_ & _ & H3 & _). by apply H3.
  - destruct (vstatistics_split_complex_spec s order v k [] Hv Hz) as (_ & _ & H3 & _). by apply H3.
Qed.
Print Assumptions C21_split_empty_refuted.

Example C21_ex : exists s0 s1 s2, vstatistics_split ex_set [] (ex_real [5; 3; 9; 4; 8]%Z) 3 = Done (Ok [s0; s1; s2]) /\
  st_sum s0 = 9%Z /\ st_count s0 = 2 /\ st_min_index s0 = 1 /\ st_sum s1 = 11%Z /\ st_sum s2 = 9%Z /\ st_count s2 = 1.
Proof. do 3 eexists. split; [vm_compute; reflexivity|]. done. Qed.

(** * C22 map_inplace and map_aggregate *)

Theorem C22_map_inplace : forall {A} `{Num A} (f : A -> nat -> A) s sched (v : dvec A) l, reals v l ->
  exists v', map_inplace f s sched v = Done v' /\ reals v' (imap (fun i x => f x i) l) /\ same_meta v v' /\ alloc_len v' = alloc_len v.
Proof. exact @map_inplace_spec. Qed.
Print Assumptions C22_map_inplace.
Theorem C22_map_inplace_complex : forall {A} `{Num A} (f : A * A -> nat -> A * A) s sched (v : dvec A) c, cplx v c -> whole_points v ->
  exists v', map_inplace_complex f s sched v = Done v' /\ cplx v' (imap (fun i x => f x i) c) /\ same_meta v v' /\ alloc_len v' = alloc_len v.
Proof. exact @map_inplace_complex_spec. Qed.
Print Assumptions C22_map_inplace_complex.

(** Aggregation: as documented when the storage has no elements behind the valid ones. No associativity is needed as there is only one thread. *)
Theorem C22_map_aggregate : forall {A} `{Num A} {R} (f : A -> nat -> R) (g : R -> R -> R) s order (v : dvec A) l,
  reals v l -> alloc_len v = len v ->
  map_aggregate f g s order v = Done (combine_all g (imap (fun i x => f x i) l)).
Proof. intros A HA R f g s order v l [Hc Hv] Ha. rewrite map_aggregate_storage by done. by rewrite (full_storage v l Hv Ha). Qed.
Print Assumptions C22_map_aggregate.
Theorem C22_map_aggregate_complex : forall {A} `{Num A} {R} (f : A * A -> nat -> R) (g : R -> R -> R) s order (v : dvec A) c,
  cplx v c -> alloc_len v = len v ->
  map_aggregate_complex f g s order v = Done (combine_all g (imap (fun i x => f x i) c)).
Proof. intros A HA R f g s order v c [Hc Hv] Ha. apply map_aggregate_complex_storage; [done|]. by apply full_storage. Qed.
Print Assumptions C22_map_aggregate_complex.

(** In general the whole storage is aggregated, also elements that do not belong to the vector. *)
Theorem C22_map_aggregate_spare_refuted : forall {A} `{Num A} {R} g s order (v : dvec A),
  (forall (f : A -> nat -> R), is_complex v = false ->
     map_aggregate f g s order v = Done (combine_all g (imap (fun i x => f x i) (elems v)))) /\
  (forall (f : A * A -> nat -> R) c, is_complex v = true -> elems v = complex_to_array c ->
     map_aggregate_complex f g s order v = Done (combine_all g (imap (fun i x => f x i) c))).
Proof. split; intros; [by apply map_aggregate_storage | by apply map_aggregate_complex_storage]. Qed.
Print Assumptions C22_map_aggregate_spare_refuted.
Example C22_ex_spare : exists v : dvec Z, reals v [1; 2]%Z /\ map_aggregate (fun x _ => x) Z.add ex_set [] v = Done (Ok 103%Z).
Proof. exists (ex_spare NReal [1; 2]%Z [100%Z]). by vm_compute. Qed.
(** A complex vector whose storage has an odd number of elements can't be mapped. *)
Theorem C22_odd_storage_refuted : forall {A} `{Num A} {R} s order (v : dvec A), is_complex v = true -> ~ whole_points v ->
  (forall f, map_inplace_complex f s order v = Panicked) /\ (forall (f : A * A -> nat -> R) g, map_aggregate_complex f g s order v = Panicked).
Proof. intros A HA R s order v Hc Hw. split; intros; [by apply map_inplace_odd_storage | by apply map_aggregate_odd_storage]. Qed.
Print Assumptions C22_odd_storage_refuted.

Example C22_ex : map_inplace (fun x i => x * Z.of_nat i)%Z ex_set [1; 0] (ex_real [5; 6; 7; 8]%Z) = Done (ex_real [0; 6; 14; 24]%Z) /\
  map_aggregate (fun x i => x * Z.of_nat i)%Z Z.add ex_set [1; 0] (ex_real [5; 6; 7; 8]%Z) = Done (Ok 44%Z) /\
  alloc_len (ex_real [5; 6; 7; 8]%Z) = len (ex_real [5; 6; 7; 8]%Z).
Proof. done. Qed.

(** * C41 Precise sums equal plain sums in exact arithmetic *)

(** The precise statistics are the plain statistics *)
Theorem C41_statistics_prec : forall {A} `{Num A} `{Flt A}, exact_ring A -> forall s order (v : dvec A),
  vstatistics_prec s order v = vstatistics s order v /\
  vstatistics_prec_complex s order v = vstatistics_complex s order v /\
  (forall k, vstatistics_split_prec s order v k = vstatistics_split s order v k) /\
  (forall k, vstatistics_split_prec_complex s order v k = vstatistics_split_complex s order v k).
Proof.
  intros A HA HF R s order v.
  unfold vstatistics_prec, vstatistics, vstatistics_prec_complex, vstatistics_complex, vstatistics_split_prec, vstatistics_split,
    vstatistics_split_prec_complex, vstatistics_split_complex.
  split_and!; intros; try (destruct (k =? 0); [done|]; destruct (STATS_VEC_CAPACITY <? k); [done|]);
    (destruct (slice (elems v) 0 (len v)) as [l|]; [|done]); rewrite !bind_Done, !get_chunked_small; (destruct l as [|x l]; [done|]);
    unfold real_piece, complex_piece; cbn [fst].
  - by rewrite stats_worker_prec_exact by (by apply real_exact_sub).
  - destruct (array_to_complex (x :: l)) as [c|]; [|done]. rewrite !bind_Done. by rewrite stats_worker_prec_exact by (by apply complex_exact_sub).
  - by rewrite split_worker_prec_exact by (by apply real_exact_sub).
  - destruct (array_to_complex (x :: l)) as [c|]; [|done]. rewrite !bind_Done. by rewrite split_worker_prec_exact by (by apply complex_exact_sub).
Qed.
Print Assumptions C41_statistics_prec.

(** The precise sums ([op] is the identity or the square) *)
Theorem C41_sum_prec : forall {A} `{Num A} `{Flt A}, exact_ring A -> forall (op : A -> A) s order (v : dvec A) l, reals v l ->
  vsum_prec op s order v = Done (sum_of nadd n0 (map op l)).
Proof.
  intros A HA HF R op s order v l [_ Hv]. unfold vsum_prec. rewrite (vdata_slice v l Hv), bind_Done, get_chunked_small.
  destruct (real_exact_sub R) as [E1 E2]. cbn in E1, E2.
  destruct l as [|x l]; [done|]. rewrite !bind_Done. cbn [foldl]. rewrite (kahan_exact (fun _ => True)) by done.
  rewrite (foldl_sum_zero nadd n0) by (by apply real_monoid). rewrite (monoid_zero_l nadd n0) by (by apply real_monoid). done.
Qed.
Print Assumptions C41_sum_prec.
Theorem C41_sum_prec_complex : forall {A} `{Num A} `{Flt A}, exact_ring A -> forall (op : A * A -> A * A) s order (v : dvec A) c, cplx v c ->
  vsum_prec_complex op s order v = Done (sum_of complex_sum (n0, n0) (map op c)).
Proof.
  intros A HA HF R op s order v c [_ Hv]. unfold vsum_prec_complex. rewrite (vdata_slice v _ Hv), bind_Done, get_chunked_small.
  destruct (complex_exact_sub R) as [E1 E2]. cbn in E1, E2.
  destruct (complex_to_array c) as [|x l0] eqn:E; [by destruct c as [|[? ?] ?]|]. rewrite <- E, array_to_complex_Done, !bind_Done. cbn [foldl].
  rewrite (kahan_exact (fun _ => True)) by done.
  rewrite (foldl_sum_zero cadd (n0, n0)) by (by apply complex_monoid). rewrite (monoid_zero_l cadd (n0, n0)) by (by apply complex_monoid). done.
Qed.
Print Assumptions C41_sum_prec_complex.

(** The precise dot products *)
Theorem C41_dot_prec : forall {A} `{Num A} `{Flt A}, exact_ring A -> forall r addr s order (v o : dvec A),
  reg_ok r -> elem_aligned r addr -> address_ok r addr v -> len v = len o ->
  (forall l lo, reals v l -> reals o lo -> dot_product_prec r addr s order v o = Done (Ok (sum_of nadd n0 (zip_with nmul l lo)))) /\
  (forall c co, cplx v c -> cplx o co -> vdomain v = vdomain o -> whole_points v ->
     dot_product_prec_complex r addr s order v o = Done (Ok (sum_of complex_sum (n0, n0) (zip_with complex_product c co)))).
Proof.
  intros A HA HF R r addr s order v o Hr Ha Hok Hlen. split.
  - intros l lo Hv [_ Ho]. pose proof (reals_len v l (proj2 Hv)) as El. pose proof (reals_len o lo Ho) as El'.
    apply (dot_real_spec R kahan_total r addr s order v o l lo []); try done; [by apply kahan_total_exact | by rewrite app_nil_r | congruence |].
    apply (address_ok_real _ _ v); [apply Hv | done].
  - intros c co Hv Ho Hd Hw. pose proof (reals_len v _ (proj2 Hv)) as El. pose proof (reals_len o _ (proj2 Ho)) as El'.
    rewrite complex_to_array_length in El, El'.
    apply (dot_complex_spec R kahan_total r addr s order v o c co []); try done; [by apply kahan_total_exact | by rewrite app_nil_r | lia].
Qed.
Print Assumptions C41_dot_prec.

Example C41_ex : vsum_prec (fun x => x) ex_set [] (ex_real [1; 2; 3]%Z) = Done 6%Z /\
  dot_product_prec f64x2 8 ex_set [] (ex_real [1; 2; 3; 4]%Z) (ex_real [1; 1; 1; 2]%Z) = Done (Ok 14%Z) /\ exact_ring Z.
Proof. split_and!; [reflexivity | reflexivity | exact Z_exact]. Qed.

(** * C45 Dot products *)

Theorem C45_dot_product : forall {A} `{Num A} `{Flt A}, exact_ring A -> forall r addr s order (v o : dvec A),
  reg_ok r -> elem_aligned r addr -> address_ok r addr v -> len v = len o ->
  (forall l lo, reals v l -> reals o lo -> dot_product r addr s order v o = Done (Ok (sum_of nadd n0 (zip_with nmul l lo)))) /\
  (forall c co, cplx v c -> cplx o co -> vdomain v = vdomain o -> whole_points v ->
     dot_product_complex r addr s order v o = Done (Ok (sum_of complex_sum (n0, n0) (zip_with complex_product c co)))).
Proof.
  intros A HA HF R r addr s order v o Hr Ha Hok Hlen. split.
  - intros l lo Hv [_ Ho]. pose proof (reals_len v l (proj2 Hv)) as El. pose proof (reals_len o lo Ho) as El'.
    apply (dot_real_spec R plain_total r addr s order v o l lo []); try done; [by rewrite app_nil_r | congruence |].
    apply (address_ok_real _ _ v); [apply Hv | done].
  - intros c co Hv Ho Hd Hw. pose proof (reals_len v _ (proj2 Hv)) as El. pose proof (reals_len o _ (proj2 Ho)) as El'.
    rewrite complex_to_array_length in El, El'.
    apply (dot_complex_spec R plain_total r addr s order v o c co []); try done; [by rewrite app_nil_r | lia].
Qed.
Print Assumptions C45_dot_product.

(** Number space of the receiver and, for complex vectors, number space and domain of the factor are checked. *)
Theorem C45_rejects : forall {A} `{Num A} `{Flt A} r addr s order (v o : dvec A),
  (is_complex v = true -> dot_product r addr s order v o = Done (Err InputMustBeReal)) /\
  (is_complex v = false -> dot_product_complex r addr s order v o = Done (Err InputMustBeComplex)) /\
  (is_complex v = true -> is_complex o = false \/ vdomain v <> vdomain o -> dot_product_complex r addr s order v o = Done (Err InputMetaDataMustAgree)).
Proof.
  intros A HA HF r addr s order v o. unfold dot_product, dot_real, dot_product_complex, dot_complex. split_and!; intros Hv.
  - by rewrite Hv. - by rewrite Hv.
  - rewrite Hv. cbn [negb]. intros [Ho|Ho]; [by rewrite Ho|]. destruct (vdomain v), (vdomain o), (is_complex o); done.
Qed.
Print Assumptions C45_rejects.

(** The size is not checked: the elements of a longer factor are ignored, a shorter one makes the call panic; nor is the number space of a factor of a real vector. *)
Theorem C45_longer_refuted : forall {A} `{Num A} `{Flt A}, exact_ring A -> forall r addr s order (v o : dvec A) l lo rest,
  reg_ok r -> elem_aligned r addr -> address_ok r addr v -> reals v l -> reals o (lo ++ rest) -> length lo = length l ->
  dot_product r addr s order v o = Done (Ok (sum_of nadd n0 (zip_with nmul l lo))).
Proof.
  intros A HA HF R r addr s order v o l lo rest Hr Ha Hok Hv [_ Ho] Hl. apply (dot_real_spec R plain_total r addr s order v o l lo rest); try done.
  apply (address_ok_real _ _ v); [apply Hv | done].
Qed.
Print Assumptions C45_longer_refuted.
Theorem C45_shorter_refuted : forall {A} `{Num A} `{Flt A} r addr s order (v o : dvec A),
  (wf v -> is_complex v = false -> len o < len v -> dot_product r addr s order v o = Panicked) /\
  (forall c co, cplx v c -> cplx o co -> vdomain v = vdomain o -> length co < length c -> dot_product_complex r addr s order v o = Panicked).
Proof. intros A HA HF r addr s order v o. split; intros; [by apply dot_shorter | by eapply dot_complex_shorter]. Qed.
Print Assumptions C45_shorter_refuted.
Theorem C45_complex_factor_refuted : forall {A} `{Num A} `{Flt A}, exact_ring A -> forall r addr s order (v o : dvec A) l co,
  reg_ok r -> elem_aligned r addr -> address_ok r addr v -> reals v l -> cplx o co -> length (complex_to_array co) = length l ->
  dot_product r addr s order v o = Done (Ok (sum_of nadd n0 (zip_with nmul l (complex_to_array co)))).
Proof.
  intros A HA HF R r addr s order v o l co Hr Ha Hok Hv [_ Ho] Hl.
  apply (dot_real_spec R plain_total r addr s order v o l (complex_to_array co) []); try done; [by rewrite app_nil_r|].
  apply (address_ok_real _ _ v); [apply Hv | done].
Qed.
Print Assumptions C45_complex_factor_refuted.
Example C45_ex_outside : dot_product f64x2 16 ex_set [] (ex_real [1; 2; 3]%Z) (ex_real [1; 2]%Z) = Panicked /\
  dot_product f64x2 16 ex_set [] (ex_real [1; 2]%Z) (ex_cplx [3; 4]%Z) = Done (Ok 11%Z).
Proof. done. Qed.

Example C45_ex : dot_product f64x2 8 ex_set [] (ex_real [1; 2; 3; 4]%Z) (ex_real [1; 1; 1; 2]%Z) = Done (Ok 14%Z) /\
  dot_product_complex f32x4 8 ex_set [] (ex_cplx [1; 2; 3; 4; 5; 6; 1; 1]%Z) (ex_cplx [1; 0; 0; 1; 1; 0; 1; 0]%Z) = Done (Ok (3, 12)%Z) /\
  reg_ok f32x4 /\ elem_aligned f32x4 8 /\ address_ok f32x4 8 (ex_cplx [1; 2; 3; 4; 5; 6; 1; 1]%Z).
Proof. split_and!; try reflexivity; [split_and!; cbn; done || lia | left; split; [done|]; intros; done]. Qed.
