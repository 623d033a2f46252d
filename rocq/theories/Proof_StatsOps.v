From Verif Require Export Proof_Stats Proof_ElemOps.

(** ** How the SIMD code cuts the data: [nl] scalar elements, [nc] elements in registers, [nr] scalar elements *)
Lemma alignment_parts r addr n : reg_ok r -> elem_aligned r addr -> simd_fits r addr n ->
  exists part from to nl nc nr,
    calc_data_alignment_reqs r addr n = Done part /\ center_range part = Done (from, to) /\ nl + nc + nr = n /\
    (nc = 0 \/ from = nl) /\ (nc <> 0 -> (addr + from * elem_size r) mod reg_bytes r = 0) /\ nc mod reg_len r = 0 /\
    (point_aligned r addr -> Nat.even n = true -> Nat.even nl = true /\ Nat.even nr = true) /\ (nc = 0 -> nr = 0) /\ (nc <> 0 -> (addr mod reg_bytes r) / elem_size r + reg_len r <= n) /\
    (forall B (L C R rest : list B), length L = nl -> length C = nc -> length R = nr ->
       slice (L ++ C ++ R ++ rest) from to = Done C /\ edge_iter part (L ++ C ++ R ++ rest) = Done (L ++ R)) /\
    (forall B (L C R rest : list B), 2 * length L = nl -> 2 * length C = nc -> 2 * length R = nr ->
       cedge_iter part (L ++ C ++ R ++ rest) = Done (L ++ R)).
Proof.
  intros Hr Ha Hf. assert (Hl : 0 < reg_len r) by (by destruct Hr as (_ & ? & _)).
  destruct (calc_data_alignment_reqs_spec r addr n Hr Ha) as (left & Hleft & Hlt & Hcase).
  pose proof (alignment_eq _ _ _ Hr Hleft) as Hleq.
  destruct Hcase as [[Hsmall ->]|[Hbig ->]].
  - exists (SimdPartition n 0 n), 0, 0, n, 0, 0. unfold center_range. cbn [p_left p_len p_right]. rewrite Nat.eqb_refl.
    split_and!; try done; try lia; try (by apply Nat.mod_0_l; lia); try (by left).
    + intros B L C R rest HL HC HR. apply nil_length_inv in HC as ->. apply nil_length_inv in HR as ->.
      rewrite !app_nil_l, app_nil_r. split; [by rewrite slice_Done by lia|].
      unfold edge_iter. cbn [p_left p_len p_right]. rewrite slice_pre' by done. rewrite bind_Done, usub_Done by lia.
      rewrite bind_Done, Nat.sub_0_r, slice_Done by (rewrite ?app_length; lia). rewrite bind_Done, Nat.sub_diag, take_0, app_nil_r. done.
    + intros B L C R rest HL HC HR. destruct C; [|simpl in HC; lia]. destruct R; [|simpl in HR; lia].
      rewrite !app_nil_l, app_nil_r. unfold cedge_iter. cbn [p_left p_len p_right]. subst n. rewrite div2_double. change (0 / 2) with 0.
      rewrite slice_pre' by done. rewrite bind_Done, usub_Done by lia.
      rewrite bind_Done, Nat.sub_0_r, slice_Done by (rewrite ?app_length; lia). rewrite bind_Done, Nat.sub_diag, take_0, app_nil_r. done.
  - destruct (parts_of (replicate n tt) left (reg_len r)) as (L0 & C0 & R0 & E & HL0 & HR0 & HC0 & HCne & _);
      [done | by rewrite replicate_length |]. rewrite replicate_length in HR0.
    set (right := (n - left) mod reg_len r) in *.
    assert (Hsum : left + length C0 + right = n).
    { apply (f_equal length) in E. rewrite replicate_length, !app_length in E. lia. }
    assert (HCpos : 0 < length C0) by (destruct C0; [done | simpl; lia]).
    exists (SimdPartition left right n), left, (n - right), left, (length C0), right.
    unfold center_range. cbn [p_left p_len p_right]. destruct (left =? n) eqn:En; [lia|]. rewrite usub_Done by lia.
    split_and!; try done; try lia; try (by right).
    + intros _. apply left_aligned; [done | | done]. destruct Hf as [?|?]; [done | rewrite <- Hleq in *; lia].
    + intros Hpt Hev. assert (Hle : Nat.even left = true) by (by apply (left_even r addr)). split; [done|].
      unfold right. apply even_mod_sub; try done; [by destruct Hr as (_ & _ & ?) | lia].
    + intros B L C R rest HL HC HR. split.
      * replace left with (length L) by done. replace (n - right) with (length L + length C) by lia. apply slice_mid.
      * unfold edge_iter. cbn [p_left p_len p_right]. rewrite slice_pre' by done. rewrite bind_Done, usub_Done by lia. rewrite bind_Done.
        replace (n - right) with (length (L ++ C)) by (rewrite app_length; lia).
        replace (L ++ C ++ R ++ rest) with ((L ++ C) ++ R ++ rest) by (by rewrite !app_assoc).
        replace n with (length (L ++ C) + length R) by (rewrite app_length; lia). by rewrite slice_mid, bind_Done.
    + intros B L C R rest HL HC HR. unfold cedge_iter. cbn [p_left p_len p_right].
      assert (n = 2 * (length L + length C + length R)) as -> by lia. rewrite <- HL, <- HR. rewrite !div2_double.
      rewrite slice_pre' by done. rewrite bind_Done, usub_Done by lia. rewrite bind_Done.
      replace (length L + length C + length R - length R) with (length (L ++ C)) by (rewrite app_length; lia).
      replace (L ++ C ++ R ++ rest) with ((L ++ C) ++ R ++ rest) by (by rewrite !app_assoc).
      replace (length L + length C + length R) with (length (L ++ C) + length R) by (rewrite app_length; lia). by rewrite slice_mid, bind_Done.
Qed.

Lemma cut3 {B} (l : list B) nl nc nr : nl + nc + nr = length l ->
  exists L C R, l = L ++ C ++ R /\ length L = nl /\ length C = nc /\ length R = nr.
Proof.
  intros Hn. exists (take nl l), (take nc (drop nl l)), (drop nc (drop nl l)). rewrite !take_drop.
  rewrite !take_length, !drop_length. split_and!; [done | lia | lia | lia].
Qed.

(** ** One worker does everything *)
Lemma get_chunked_small {A R} s order (a : list A) w (f : list A -> nat * nat -> run R) :
  get_chunked_results Small s order a w f = match a with [] => Done [] | _ => r ← f a (0, length a); Done [r] end.
Proof. destruct a as [|x a]; [done|]. unfold get_chunked_results, map_on_array_chunks. cbv zeta. by rewrite small_single. Qed.

Lemma get_zipped_small {A R} s order (a : list A) aw (b : list A) bw (f : list A -> nat * nat -> list A -> run R) :
  get_zipped Small s order a aw b bw f = match a with [] => Done [] | _ => r ← f a (0, length a) b; Done [r] end.
Proof. destruct a as [|x a]; [done|]. unfold get_zipped. cbv zeta. by rewrite small_single. Qed.

Section ops.
Context {A : Type} `{Num A} `{Flt A}.

Lemma vdata_slice (v : dvec A) l : vdata v = Done l -> slice (elems v) 0 (len v) = Done l.
Proof. intros Hv. destruct (vdata_split v l Hv) as (rest & -> & Hn). unfold len. rewrite Hn. apply slice_pre. Qed.

Theorem vstatistics_spec s order (v : dvec A) l : vdata v = Done l -> zero_neutral A ->
  (l = [] -> vstatistics s order v = Done stats_invalid) /\
  (l <> [] -> exists st, vstatistics s order v = Done st /\ totals_of l st /\ (comparable l -> statistics_of l st)).
Proof.
  intros Hv Hz. unfold vstatistics. rewrite (vdata_slice v l Hv), bind_Done, get_chunked_small. split; [by intros -> |].
  intros Hne. destruct l as [|x l0] eqn:E; [done|]. rewrite <- E in *. unfold real_piece. cbn [fst]. rewrite !bind_Done, stats_merge_one.
  eexists. split; [done|]. split; [by apply finished_totals | intros; by apply finished_worker].
Qed.

Theorem vstatistics_complex_spec s order (v : dvec A) c : vdata v = Done (complex_to_array c) -> zero_neutral (A * A) ->
  (c = [] -> vstatistics_complex s order v = Done stats_invalid) /\
  (c <> [] -> exists st, vstatistics_complex s order v = Done st /\ totals_of c st /\ (comparable c -> statistics_of c st)).
Proof.
  intros Hv Hz. unfold vstatistics_complex. rewrite (vdata_slice v _ Hv), bind_Done, get_chunked_small. split; [by intros -> |].
  intros Hne. destruct (complex_to_array c) as [|x l0] eqn:E; [by destruct c as [|[? ?] ?]|]. rewrite <- E in *.
  unfold complex_piece. cbn [fst]. rewrite array_to_complex_Done. change (0 / 2) with 0. rewrite !bind_Done, stats_merge_one.
  eexists. split; [done|]. split; [by apply finished_totals | intros; by apply finished_worker].
Qed.

(** What [statistics_split] returns for the numbers [l] *)
Definition split_result {P} `{StatOps P} (k : nat) (l : list P) (r : run (result (list (statistics P)))) : Prop :=
  (k = 0 -> r = Done (Ok [])) /\
  (16 < k -> r = Done (Err InvalidArgumentLength)) /\
  (0 < k <= 16 -> l = [] -> r = Done (Ok [])) /\
  (0 < k <= 16 -> l <> [] ->
    exists sts, r = Done (Ok sts) /\ length sts = k /\
      forall b, b < k -> exists lb st, is_bucket k b l lb /\ sts !! b = Some st /\ totals_of lb st /\ (comparable l -> statistics_of lb st)).

Lemma bucket_sub {P} k b (l lb : list P) : is_bucket k b l lb -> lb ⊆ l.
Proof. intros Hb x Hx. apply elem_of_list_lookup in Hx as [j Hj]. rewrite Hb in Hj. by eapply elem_of_list_lookup_2. Qed.

Lemma split_finish {P} `{StatOps P} k (l : list P) : zero_neutral P -> 0 < k <= 16 ->
  exists rs, split_worker k 0 l = Done rs /\ exists sts, merge_cols [rs] = Done sts /\ length sts = k /\
      forall b, b < k -> exists lb st, is_bucket k b l lb /\ sts !! b = Some st /\ totals_of lb st /\ (comparable l -> statistics_of lb st).
Proof.
  intros Hz Hk. destruct (split_worker_Done k l) as (rs & E & Hl & Hb); [lia|]. exists rs. split; [done|].
  exists (map finished rs). split; [apply merge_cols_one; lia|]. split; [by rewrite map_length|]. intros b Hbk.
  destruct (Hb b Hbk) as (lb & Hlb & Hst). exists lb, (finished (stats_worker 0 lb)). split; [done|]. rewrite list_lookup_fmap, Hst.
  split; [done|]. split; [by apply finished_totals|]. intros Hc. apply finished_worker; [done|].
  eapply comparable_sub; [done|]. by eapply bucket_sub.
Qed.

Theorem vstatistics_split_spec s order (v : dvec A) k l : vdata v = Done l -> zero_neutral A -> split_result k l (vstatistics_split s order v k).
Proof.
  intros Hv Hz. unfold vstatistics_split, split_result, STATS_VEC_CAPACITY. rewrite (vdata_slice v l Hv).
  destruct (k =? 0) eqn:E0; [apply Nat.eqb_eq in E0; split_and!; done || lia|]. apply Nat.eqb_neq in E0.
  destruct (16 <? k) eqn:E1; [apply Nat.ltb_lt in E1; split_and!; done || lia|]. apply Nat.ltb_ge in E1.
  rewrite bind_Done, get_chunked_small. split_and!; try lia; [by intros _ -> |]. intros Hk Hne.
  destruct l as [|x l0] eqn:El; [done|]. rewrite <- El in *. unfold real_piece. cbn [fst].
  destruct (split_finish k l Hz Hk) as (rs & -> & sts & Hm & Hs). rewrite !bind_Done, Hm, bind_Done. exists sts. done.
Qed.

Theorem vstatistics_split_complex_spec s order (v : dvec A) k c : vdata v = Done (complex_to_array c) -> zero_neutral (A * A) ->
  split_result k c (vstatistics_split_complex s order v k).
Proof.
  intros Hv Hz. unfold vstatistics_split_complex, split_result, STATS_VEC_CAPACITY. rewrite (vdata_slice v _ Hv).
  destruct (k =? 0) eqn:E0; [apply Nat.eqb_eq in E0; split_and!; done || lia|]. apply Nat.eqb_neq in E0.
  destruct (16 <? k) eqn:E1; [apply Nat.ltb_lt in E1; split_and!; done || lia|]. apply Nat.ltb_ge in E1.
  rewrite bind_Done, get_chunked_small. split_and!; try lia; [by intros _ -> |]. intros Hk Hne.
  destruct (complex_to_array c) as [|x l0] eqn:E; [by destruct c as [|[? ?] ?]|]. rewrite <- E in *.
  unfold complex_piece. cbn [fst]. rewrite array_to_complex_Done. change (0 / 2) with 0. rewrite bind_Done.
  destruct (split_finish k c Hz Hk) as (rs & -> & sts & Hm & Hs). rewrite !bind_Done, Hm, bind_Done. exists sts. done.
Qed.
End ops.

(** ** Compensated sums *)
Section prec.
Context {P : Type} `{StatOps P}.

(** Subtraction is exact *)
Definition exact_sub : Prop := (forall x : P, t_sub x t_zero = x) /\ (forall s y : P, t_sub (t_sub (t_add s y) s) y = t_zero).

Lemma stats_add_prec_exact (st : statistics P) x i : exact_sub ->
  stats_add_prec st x i t_zero t_zero = (stats_add st x i, t_zero, t_zero).
Proof. intros [E1 E2]. unfold stats_add_prec, stats_add. cbv zeta. rewrite !E1, !E2. done. Qed.

Lemma stats_worker_prec_exact s (l : list P) : exact_sub -> stats_worker_prec s l = stats_worker s l.
Proof.
  intros E. unfold stats_worker_prec, stats_worker. set (st := stats_empty). clearbody st. revert st s.
  induction l as [|x l IH]; intros st s; [done|]. cbn [foldl]. rewrite stats_add_prec_exact by done. apply IH.
Qed.

Lemma split_worker_prec_exact k s (l : list P) : exact_sub -> split_worker_prec k s l = split_worker k s l.
Proof.
  intros E. unfold split_worker_prec, split_worker. set (rs := replicate k stats_empty). clearbody rs.
  assert (Hpan : forall l : list P, foldl (fun m x => '(results, sumc, rmsc, j) ← m; i ← umod j k; st ← rd results i;
                        let '(st', sumc', rmsc') := stats_add_prec st x (j / k) sumc rmsc in
                        results ← wr results i st'; Done (results, sumc', rmsc', j + 1)) Panicked l = Panicked).
  { clear. induction l as [|x l IH]; [done|]. apply IH. }
  assert (Hpan' : forall l : list P, foldl (fun m x => '(results, j) ← m; i ← umod j k; st ← rd results i;
                        results ← wr results i (stats_add st x (j / k)); Done (results, j + 1)) Panicked l = Panicked).
  { clear. induction l as [|x l IH]; [done|]. apply IH. }
  revert rs s. induction l as [|x l IH]; intros rs s; [done|]. cbn [foldl]. rewrite !bind_Done.
  destruct (umod s k) as [i|]; [|cbn [mbind run_bind]; by rewrite Hpan, Hpan']. rewrite !bind_Done.
  destruct (rd rs i) as [st|]; [|cbn [mbind run_bind]; by rewrite Hpan, Hpan']. rewrite !bind_Done.
  rewrite stats_add_prec_exact by done. destruct (wr rs i _) as [rs'|]; [|cbn [mbind run_bind]; by rewrite Hpan, Hpan'].
  rewrite !bind_Done. apply IH.
Qed.

Lemma kahan_exact {Q} (D : Q -> Prop) (zero : Q) add sub (l : list Q) :
  D zero -> (forall x y, D x -> D y -> D (add x y)) ->
  (forall x, D x -> sub x zero = x) -> (forall s y, D s -> D y -> sub (sub (add s y) s) y = zero) -> (forall x, x ∈ l -> D x) ->
  kahan_sum zero add sub l = foldl add zero l.
Proof.
  intros Dz Da E1 E2. unfold kahan_sum.
  enough (Hg : forall acc, D acc -> (forall x, x ∈ l -> D x) ->
    fst (foldl (fun '(sum, c) n => let y := sub n c in let t := add sum y in (t, sub (sub t sum) y)) (acc, zero) l) = foldl add acc l)
    by (by apply Hg).
  induction l as [|x l IH]; intros acc Hacc Hl; [done|]. cbn [foldl]. cbv zeta.
  assert (Dx : D x) by (apply Hl; left). rewrite E1, E2 by done. apply IH; [auto|]. intros; apply Hl. by right.
Qed.
End prec.
