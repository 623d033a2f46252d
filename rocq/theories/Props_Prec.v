(** Theorems for C67: what the precise sums are good for, with rounding *)
From Verif Require Import Proof_StatsOps Proof_Prec Proof_PrecOps Proof_PrecDot2 Spec_Prec Model_Double Props_Stats.
From stdpp Require Import tactics.
From Coq Require Import Lia.
Local Open Scope R_scope.

(** [sum_prec] ([op] is the identity) and [sum_sq_prec] ([op] is the square): six roundings, however many elements are added. *)
Theorem C67_sum : forall {A} `{Num A} (val : A -> R) usual u, rounds val usual u -> forall (op : A -> A) s order (v : dvec A) l,
  reals v l -> not_too_many u l -> (forall x, x ∈ l -> usual (op x)) ->
  exists x, vsum_prec op s order v = Done x /\ usual x /\ within u 6 (map (fun y => val (op y)) l) (val x).
Proof. intros A ? val usual u HR op s order v l. exact (vsum_prec_within val usual u HR op s order v l). Qed.
Print Assumptions C67_sum.
(** Of complex numbers, for the real and for the imaginary parts *)
Theorem C67_sum_complex : forall {A} `{Num A} (val : A -> R) usual u, rounds val usual u -> forall (op : A * A -> A * A) s order (v : dvec A) c,
  cplx v c -> not_too_many u c -> (forall x, x ∈ c -> usual (fst (op x)) /\ usual (snd (op x))) ->
  exists x, vsum_prec_complex op s order v = Done x /\
    within u 6 (map (fun y => val (fst (op y))) c) (val (fst x)) /\ within u 6 (map (fun y => val (snd (op y))) c) (val (snd x)).
Proof. intros A ? val usual u HR op s order v c. exact (vsum_prec_complex_within val usual u HR op s order v c). Qed.
Print Assumptions C67_sum_complex.
(** [statistics_prec] *)
Theorem C67_statistics : forall {A} `{Num A} `{Flt A} (val : A -> R) usual u, rounds val usual u -> forall s order (v : dvec A) l,
  reals v l -> l <> [] -> not_too_many u l -> (forall x, x ∈ l -> usual x) ->
  exists st, vstatistics_prec s order v = Done st /\ st_count st = length l /\
    within u 6 (map val l) (val (st_sum st)) /\ st_average st = (st_sum st / nofnat (length l))%num /\
    ((forall x, x ∈ l -> usual (x * x)%num) ->
     exists sq, st_rms st = fsqrt (sq / nofnat (length l))%num /\ within u 6 (map (fun x => val (x * x)%num) l) (val sq)).
Proof. intros A ? ? val usual u HR s order v l. exact (vstatistics_prec_within val usual u HR s order v l). Qed.
Print Assumptions C67_statistics.
Theorem C67_statistics_complex : forall {A} `{Num A} `{Flt A} (val : A -> R) usual u, rounds val usual u -> forall s order (v : dvec A) c,
  cplx v c -> c <> [] -> not_too_many u c -> (forall x, x ∈ c -> usual (fst x) /\ usual (snd x)) ->
  exists st, vstatistics_prec_complex s order v = Done st /\ st_count st = length c /\
    within u 6 (map (fun x => val (fst x)) c) (val (fst (st_sum st))) /\ within u 6 (map (fun x => val (snd x)) c) (val (snd (st_sum st))).
Proof. intros A ? ? val usual u HR s order v c. exact (vstatistics_prec_complex_within val usual u HR s order v c). Qed.
Print Assumptions C67_statistics_complex.

(** [dot_product_prec]: the registers are added with compensation, lane by lane. What remains are the additions of the lanes and of the few elements outside of
    the registers, so that the error depends on the register size (at most 16 lanes) but not on the length. It is relative to the products as they are rounded. *)
Theorem C67_dot : forall {A} `{Num A} (val : A -> R) usual u, rounds val usual u -> forall r addr s order (v o : dvec A) l lo,
  reg_ok r -> (reg_len r <= 16)%nat -> elem_aligned r addr -> address_ok r addr v -> reals v l -> reals o lo -> length lo = length l ->
  not_too_many u l -> (forall x, x ∈ zip_with nmul l lo -> usual x) ->
  exists x, dot_product_prec r addr s order v o = Done (Ok x) /\ usual x /\
    within u (7 + 9 / 4 * INR (reg_len r)) (map val (zip_with nmul l lo)) (val x).
Proof.
  intros A ? val usual u HR r addr s order v o l lo Hr H16 Ha Hok Hv [_ Ho] Hl Hn Hx.
  apply (real_dot_within val usual u HR r addr s order v o l lo []); try done; [by rewrite app_nil_r|].
  apply (address_ok_real _ _ v); [apply Hv | done].
Qed.
Print Assumptions C67_dot.
(** Of complex vectors, for the real and for the imaginary parts *)
Theorem C67_dot_complex : forall {A} `{Num A} (val : A -> R) usual u, rounds val usual u -> forall r addr s order (v o : dvec A) c co,
  reg_ok r -> (reg_len r <= 16)%nat -> elem_aligned r addr -> address_ok r addr v -> cplx v c -> cplx o co -> length co = length c ->
  vdomain v = vdomain o -> whole_points v -> not_too_many u c ->
  (forall x, x ∈ zip_with complex_product c co -> usual (fst x) /\ usual (snd x)) ->
  exists x, dot_product_prec_complex r addr s order v o = Done (Ok x) /\
    within u (7 + 9 / 4 * INR (reg_len r)) (map (fun y => val (fst y)) (zip_with complex_product c co)) (val (fst x)) /\
    within u (7 + 9 / 4 * INR (reg_len r)) (map (fun y => val (snd y)) (zip_with complex_product c co)) (val (snd x)).
Proof.
  intros A ? val usual u HR r addr s order v o c co Hr H16 Ha Hok Hv Ho Hl Hd Hw Hn Hx.
  apply (cplx_dot_within val usual u HR r addr s order v o c co []); try done. by rewrite app_nil_r.
Qed.
Print Assumptions C67_dot_complex.

(** f64 is such an arithmetic: with its real format, denormal numbers included, and rounding to nearest even. Up to 2^47 elements are not too many. *)
Theorem C67_f64 : @rounds R f64_num (fun x => x) (generic_format radix2 (FLT_exp (-1074) 53)) (/ 2 ^ 53) /\
  forall (l : list R), (Z.of_nat (length l) <= 2 ^ 47)%Z -> not_too_many (/ 2 ^ 53) l.
Proof.
  split; [exact f64_rounds|]. intros l Hl. split; [exact f64_small_unit|]. rewrite INR_IZR_INZ. apply IZR_le in Hl.
  apply (Rle_trans _ (IZR (2 ^ 47) * / 2 ^ 53)).
  - apply Rmult_le_compat_r; [apply f64_small_unit|exact Hl].
  - rewrite pow_IZR. change (2 ^ 47)%Z with 140737488355328%Z. change (2 ^ Z.of_nat 53)%Z with 9007199254740992%Z. lra.
Qed.
Print Assumptions C67_f64.

(** Without the compensation the error grows with the number of elements: the plain statistics of f64 numbers are off by half of their count. *)
Theorem C67_plain : forall n s order (v : dvec R), reals v (IZR (2 ^ 53) :: replicate n (/ 2)) ->
  exists st, @vstatistics R f64_num f64_flt s order v = Done st /\
    Rsum (IZR (2 ^ 53) :: replicate n (/ 2)) - st_sum st = INR n / 2.
Proof.
  intros n s order v [_ Hv]. unfold vstatistics. rewrite (vdata_slice v _ Hv), bind_Done, get_chunked_small. unfold real_piece. rewrite !bind_Done.
  eexists. split; [reflexivity|]. cbn [fst]. rewrite stats_merge_one. unfold finished. cbn [st_sum].
  destruct (@stats_worker_raw R (@real_stats R f64_num f64_flt) 0 (IZR (2 ^ 53) :: replicate n (/ 2))) as (E & _). rewrite E.
  change (@t_add R (@real_stats R f64_num f64_flt)) with (@nadd R f64_num). change (@t_zero R (@real_stats R f64_num f64_flt)) with (@n0 R f64_num).
  fold big. rewrite plain_absorbed. cbn [nadd n0 f64_num]. rewrite Rplus_0_l, (f64_round_same _ big_usual).
  unfold Rsum. cbn [foldr]. replace (foldr Rplus 0 (replicate n (/ 2))) with (INR n / 2); [lra|].
  clear. induction n as [|n IH]; [cbn; lra|]. rewrite S_INR. cbn [replicate foldr]. rewrite <- IH. lra.
Qed.
Print Assumptions C67_plain.

(** f32 vectors: the precise statistics and sums are the plain ones of the same numbers as f64, and their error stays below 2 (n + 1) roundings of f64. *)
Theorem C67_f32 : forall {A B} `{Num A} `{Num B} `{Flt B} (widen : A -> B) s order s' order' (v : dvec A) (w : dvec B) l,
  vdata v = Done l -> vdata w = Done (map widen l) ->
  vstatistics_prec32 widen s order v = vstatistics s' order' w /\
  (forall k, vstatistics_split_prec32 widen s order v k = vstatistics_split s' order' w k) /\
  forall (val : B -> R) usual u, rounds val usual u -> 0 <= u -> INR (length l + 1) * u <= 1 ->
    ((forall x, x ∈ l -> usual (widen x)) ->
       exists x, vsum_prec32 widen s order v = Done x /\ within u (2 * INR (length l + 1)) (map (fun y => val (widen y)) l) (val x)) /\
    ((forall x, x ∈ l -> usual (widen x * widen x)%num) ->
       exists x, vsum_sq_prec32 widen s order v = Done x /\
         within u (2 * INR (length l + 1)) (map (fun y => val (widen y * widen y)%num) l) (val x)).
Proof.
  intros A B ? ? ? widen s order s' order' v w l Hv Hw. destruct (prec32_real widen s order s' order' v w l Hv Hw) as (E1 & E2 & E3 & E4).
  split; [exact E1|]. split; [exact E2|]. intros val usual u HR Hu Hn. split; intros Hl; (eexists; split; [eassumption|]).
  - destruct l as [|y l]; [rewrite (proj2 (r_zero _ _ _ HR)); apply within_nil|]. set (l' := y :: l) in *. clearbody l'.
    replace (map (fun y0 => val (widen y0)) l') with (map val (map widen l')) by (by rewrite map_map).
    rewrite <- (map_length widen l') in Hn |- *. apply (plain_finished val usual u _ HR Hu Hn). intros z (a & -> & Ha)%elem_of_list_fmap. by apply Hl.
  - destruct l as [|y l]; [rewrite (proj2 (r_zero _ _ _ HR)); apply within_nil|]. set (l' := y :: l) in *. clearbody l'.
    replace (map (fun y0 => val (widen y0 * widen y0)%num) l') with (map val (map (fun y0 => (widen y0 * widen y0)%num) l')) by (by rewrite map_map).
    rewrite <- (map_length (fun y0 => (widen y0 * widen y0)%num) l') in Hn |- *. apply (plain_finished val usual u _ HR Hu Hn).
    intros z (a & -> & Ha)%elem_of_list_fmap. by apply Hl.
Qed.
Print Assumptions C67_f32.
Theorem C67_f32_complex : forall {A B} `{Num A} `{Num B} `{Flt B} (widen : A -> B) s order s' order' (v : dvec A) (w : dvec B) c,
  let wide x := (widen (fst x), widen (snd x)) in
  vdata v = Done (complex_to_array c) -> vdata w = Done (complex_to_array (map wide c)) ->
  vstatistics_prec32_complex widen s order v = vstatistics_complex s' order' w /\
  (forall k, vstatistics_split_prec32_complex widen s order v k = vstatistics_split_complex s' order' w k) /\
  (c <> [] -> vsum_prec32_complex widen s order v = Done (cadd (n0, n0) (foldl cadd (n0, n0) (map wide c))) /\
              vsum_sq_prec32_complex widen s order v = Done (cadd (n0, n0) (foldl cadd (n0, n0) (map (fun x => cmul (wide x) (wide x)) c)))) /\
  (c = [] -> vsum_prec32_complex widen s order v = Done (n0, n0) /\ vsum_sq_prec32_complex widen s order v = Done (n0, n0)).
Proof.
  intros A B ? ? ? widen s order s' order' v w c wide Hv Hw. destruct (prec32_complex widen s order s' order' v w c Hv Hw) as (E1 & E2 & E3 & E4).
  split; [exact E1|]. split; [exact E2|]. rewrite E3, E4. split; intros Hc; [destruct c; [done|]|subst c]; done.
Qed.
Print Assumptions C67_f32_complex.

(** [statistics_split_prec] shares one compensation between the buckets: what is lost in one bucket is added to the next one. Every absorbed number [y] of
    the first bucket becomes the sum of the second bucket, all of whose elements are zero. *)
Theorem C67_split_refuted : forall s order (v : dvec R) x y,
  generic_format radix2 (FLT_exp (-1074) 53) x -> generic_format radix2 (FLT_exp (-1074) 53) y -> f64_round (x + y) = x ->
  reals v [x; 0; y; 0] ->
  exists st0 st1, @vstatistics_split_prec R f64_num f64_flt s order v 2 = Done (Ok [st0; st1]) /\ st_sum st1 = y.
Proof. intros s order v x y Hx Hy Hxy Hv. exact (split_prec_mixes s order v x y Hv Hx Hy Hxy). Qed.
Print Assumptions C67_split_refuted.

(** 2^53 + 1/2 is rounded to 2^53, so the sum of two zeros is 1/2 *)
Definition double_vec (l : list R) : dvec R := DVec (Storage KVec (length l) l) 1 DTime NReal (length l).
Lemma double_reals l : reals (double_vec l) l.
Proof. split; [done|]. unfold vdata, double_vec, len, elems. cbn. rewrite slice_Done by lia. by rewrite drop_0, Nat.sub_0_r, firstn_all. Qed.
Example C67_split_example : exists s order st0 st1,
  @vstatistics_split_prec R f64_num f64_flt s order (double_vec [IZR (2 ^ 53); 0; / 2; 0]) 2 = Done (Ok [st0; st1]) /\ st_sum st1 = / 2.
Proof.
  exists ex_set, []. apply (C67_split_refuted ex_set [] _ (IZR (2 ^ 53)) (/ 2)); [exact big_usual|exact half_usual|exact half_absorbed|apply double_reals].
Qed.
Example C67_example : exists x, @vsum_prec R f64_num (fun y => y) ex_set [] (double_vec (IZR (2 ^ 53) :: replicate 100 (/ 2))) = Done x /\
  within (/ 2 ^ 53) 6 (IZR (2 ^ 53) :: replicate 100 (/ 2)) x.
Proof.
  destruct C67_f64 as [HR Hn].
  destruct (@C67_sum R f64_num (fun x => x) _ _ HR (fun y => y) ex_set [] _ _ (double_reals (IZR (2 ^ 53) :: replicate 100 (/ 2)))) as (x & E & _ & W).
  - apply Hn. cbn [length]. rewrite replicate_length. lia.
  - intros z [->|Hz]%elem_of_cons; [exact big_usual|]. apply elem_of_replicate_inv in Hz as ->. exact half_usual.
  - exists x. split; [exact E|]. rewrite map_id in W. exact W.
Qed.

(** The same numbers as the products of two vectors, with registers of four lanes *)
Example C67_dot_example : exists x,
  @dot_product_prec R f64_num f64x4 0 ex_set [] (double_vec (IZR (2 ^ 53) :: replicate 100 (/ 2))) (double_vec (replicate 101 1)) = Done (Ok x) /\
  within (/ 2 ^ 53) 16 (IZR (2 ^ 53) :: replicate 100 (/ 2)) x.
Proof.
  destruct C67_f64 as [HR Hn].
  assert (E : forall l, (forall z, z ∈ l -> generic_format radix2 (FLT_exp (-1074) 53) z) -> forall n, n = length l -> zip_with (@nmul R f64_num) l (replicate n 1) = l).
  { intros l Hl n ->. induction l as [|z l IH]; [reflexivity|]. cbn [length replicate zip_with]. rewrite IH by (intros y Hy; apply Hl; by right).
    f_equal. cbn [nmul f64_num]. rewrite Rmult_1_r. apply f64_round_same. apply Hl. left. }
  assert (Hu : forall z, z ∈ IZR (2 ^ 53) :: replicate 100 (/ 2) -> generic_format radix2 (FLT_exp (-1074) 53) z).
  { intros z [->|Hz]%elem_of_cons; [exact big_usual|]. apply elem_of_replicate_inv in Hz as ->. exact half_usual. }
  assert (El : 101%nat = length (IZR (2 ^ 53) :: replicate 100 (/ 2))) by (cbn [length]; rewrite replicate_length; reflexivity).
  pose proof (E _ Hu _ El) as Ez.
  assert (Hr : reg_ok f64x4) by (split_and!; vm_compute; lia || reflexivity).
  assert (H4 : (reg_len f64x4 <= 16)%nat) by (vm_compute; lia).
  assert (Ha : elem_aligned f64x4 0%nat) by reflexivity.
  assert (Hok : address_ok f64x4 0%nat (double_vec (IZR (2 ^ 53) :: replicate 100 (/ 2)))) by (left; split; [reflexivity|discriminate]).
  destruct (@C67_dot R f64_num (fun x => x) _ _ HR f64x4 0%nat ex_set [] _ _ _ _ Hr H4 Ha Hok
    (double_reals (IZR (2 ^ 53) :: replicate 100 (/ 2))) (double_reals (replicate 101 1))) as (x & Ex & _ & W).
  - by rewrite replicate_length.
  - apply Hn. rewrite <- El. lia.
  - rewrite Ez. exact Hu.
  - exists x. split; [exact Ex|]. rewrite Ez, map_id in W. replace (7 + 9 / 4 * INR (reg_len f64x4)) with 16 in W by (cbn; lra). exact W.
Qed.
