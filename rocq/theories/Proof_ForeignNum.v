(** Proofs about the functions of the C interface which answer with numbers (C69) *)
From stdpp Require Import tactics.
From Verif Require Import Proof_Base Proof_Vec Proof_Map Proof_Index Proof_Interop Props_Stats Props_Vec Props_Interop Spec_Foreign.
From Verif Require Import Spec_Index Model_MatOps Model_Foreign.
Local Open Scope nat_scope.

(** The same elements, declared as real numbers or as complex ones *)
Definition declared {A} (b : bool) (v : dvec A) : dvec A := DVec (data v) (delta v) (domain v) (NDyn b) (valid_len v).

Section reads.
Context {A : Type}.
Implicit Types (x : ivec A).

Lemma full_range (v : dvec A) l : vdata v = Done l -> data_range v Full = Done l.
Proof.
  intros Hl. apply (data_range_spec v l Full Hl). destruct (vdata_slice v l Hl) as (_ & Hn & _ & _).
  assert (E : length l = len v) by exact Hn. unfold inside, part. cbn [bounds fst snd]. split; [lia|]. split; [lia|]. done.
Qed.
Lemma full_rangec (v : dvec A) c : cplx v c -> datac_range v Full = Done c.
Proof.
  intros Hc. apply (datac_range_spec v c Full Hc). destruct (cplx_slice v c Hc) as (_ & Hn).
  unfold inside, part. cbn [bounds fst snd]. split; [lia|]. split; [lia|]. done.
Qed.
Lemma vdata_len (v : dvec A) l : vdata v = Done l -> len v = length l /\ length l <= alloc_len v.
Proof. intros Hl. destruct (vdata_slice v l Hl) as (_ & Hn & Hm & _). split; [symmetry; exact Hn|]. rewrite Hn. exact Hm. Qed.
Lemma get_value_spec x l i : vdata (i_vec x) = Done l -> (forall y, get_value x i = Done y <-> l !! i = Some y) /\ (get_value x i = Panicked <-> length l <= i).
Proof.
  intros Hl. unfold get_value. rewrite Hl, bind_Done. unfold rd. destruct (l !! i) as [z|] eqn:E.
  - split; [intros y; split; congruence|]. split; [discriminate|]. intros Hx. apply lookup_ge_None_2 in Hx. congruence.
  - split; [intros y; split; congruence|]. split; [intros _; by apply lookup_ge_None|done].
Qed.
Lemma set_value_spec x l i z : vdata (i_vec x) = Done l ->
  (i < length l -> exists y, set_value x i z = Done y /\ i_buf y = i_buf x /\ vdata (i_vec y) = Done (<[i := z]> l) /\ same_meta (i_vec x) (i_vec y) /\ same_rest (i_vec x) (i_vec y)) /\
  (length l <= i -> set_value x i z = Panicked).
Proof.
  intros Hl. split.
  - intros Hi. unfold set_value. rewrite Hl, bind_Done. unfold wr at 1. rewrite (proj2 (Nat.ltb_lt i (length l)) Hi), bind_Done.
    destruct (put_back (i_vec x) l (<[i := z]> l) Hl (insert_length _ _ _)) as (v' & E & P1 & P2 & P3). 
    destruct (splice (elems (i_vec x)) 0 (<[i := z]> l)) as [l'|] eqn:Es; [|discriminate E]. injection E as <-. rewrite bind_Done. eexists. split; [reflexivity|]. done.
  - intros Hi. unfold set_value. rewrite Hl, bind_Done. unfold wr at 1. by rewrite (proj2 (Nat.ltb_ge i (length l)) Hi).
Qed.
End reads.

Section numbers.
Context {A : Type} `{Num A} `{Flt A} `{IsNan A}.
Context (e : env).
Implicit Types (x : ivec A).

Lemma sum_any op x l : exact_ring A -> reg_ok (e_reg e) -> elem_aligned (e_reg e) (e_addr e 0) -> address_ok (e_reg e) (e_addr e 0) (declared false (i_vec x)) ->
  vdata (i_vec x) = Done l -> foreign_sum e op x = Done (sum_of nadd n0 (map (term (fun y => y * y)%num op) l)).
Proof.
  intros HE Hr He Ha Hl. 
  destruct (C19_sum HE (e_reg e) (e_addr e 0) (e_set e) (e_sched e 0 0) (declared false (i_vec x)) l Hr He (conj eq_refl Hl) Ha) as [S1 S2].
  unfold foreign_sum. destruct op; cbn [vec_sum_op term].
  - rewrite map_id. exact S1.
  - exact S2.
  - exact (C41_sum_prec HE (fun y => y) (e_set e) (e_sched e 0 0) (declared false (i_vec x)) l (conj eq_refl Hl)).
  - exact (C41_sum_prec HE (fun y => y * y)%num (e_set e) (e_sched e 0 0) (declared false (i_vec x)) l (conj eq_refl Hl)).
Qed.
Lemma complex_sum_any op x c : exact_ring A -> reg_ok (e_reg e) -> elem_aligned (e_reg e) (e_addr e 0) -> address_ok (e_reg e) (e_addr e 0) (declared true (i_vec x)) ->
  Nat.even (alloc_len (i_vec x)) = true -> vdata (i_vec x) = Done (complex_to_array c) ->
  foreign_complex_sum e op x = Done (sum_of complex_sum (n0, n0) (map (term (fun z => complex_product z z) op) c)).
Proof.
  intros HE Hr He Ha Hw Hl.
  destruct (C19_sum_complex HE (e_reg e) (e_addr e 0) (e_set e) (e_sched e 0 0) (declared true (i_vec x)) c Hr He (conj eq_refl Hl) (fun _ => Hw) Ha) as [S1 S2].
  unfold foreign_complex_sum. destruct op; cbn [vec_complex_sum_op term].
  - rewrite map_id. exact S1.
  - exact S2.
  - exact (C41_sum_prec_complex HE (fun y => y) (e_set e) (e_sched e 0 0) (declared true (i_vec x)) c (conj eq_refl Hl)).
  - exact (C41_sum_prec_complex HE (fun z => complex_product z z) (e_set e) (e_sched e 0 0) (declared true (i_vec x)) c (conj eq_refl Hl)).
Qed.
Lemma stat_any op x l : exact_ring A -> zero_neutral A -> vdata (i_vec x) = Done l ->
  (l = [] -> foreign_statistics e op x = Done stats_invalid) /\
  (l <> [] -> exists st, foreign_statistics e op x = Done st /\ totals_of l st /\ (comparable l -> statistics_of l st)).
Proof.
  intros HE Hz Hl. pose proof (C19_statistics_real (e_set e) (e_sched e 0 0) (declared false (i_vec x)) l (conj eq_refl Hl) Hz) as Hx.
  destruct op; [exact Hx|]. unfold foreign_statistics. cbn [vec_stat_op]. rewrite (proj1 (C41_statistics_prec HE (e_set e) (e_sched e 0 0) (i_vec x))). exact Hx.
Qed.
Lemma complex_stat_any op x c : exact_ring A -> zero_neutral (A * A) -> vdata (i_vec x) = Done (complex_to_array c) ->
  (c = [] -> foreign_complex_statistics e op x = Done stats_invalid) /\
  (c <> [] -> exists st, foreign_complex_statistics e op x = Done st /\ totals_of c st /\ (comparable c -> statistics_of c st)).
Proof.
  intros HE Hz Hl. pose proof (C19_statistics_complex (e_set e) (e_sched e 0 0) (declared true (i_vec x)) c (conj eq_refl Hl) Hz) as Hx.
  destruct op; [exact Hx|]. unfold foreign_complex_statistics. rewrite (proj1 (proj2 (C41_statistics_prec HE (e_set e) (e_sched e 0 0) (i_vec x)))). exact Hx.
Qed.

Lemma splice_whole {P} (d s : list P) : length s = length d -> splice d 0 s = Done s.
Proof. intros Hs. unfold splice. destruct (Nat.leb_spec (0 + length s) (length d)); [|lia]. cbn [take Nat.add]. rewrite drop_ge by lia. cbn. by rewrite app_nil_r. Qed.
Lemma split_any op x l d : exact_ring A -> zero_neutral A -> vdata (i_vec x) = Done l ->
  (16 < length d -> foreign_split e op x d = Done (d, 7%Z)) /\
  (0 < length d <= 16 -> l <> [] -> exists sts, foreign_split e op x d = Done (sts, 0%Z) /\ length sts = length d /\
     forall b, b < length d -> exists lb st, is_bucket (length d) b l lb /\ sts !! b = Some st /\ totals_of lb st /\ (comparable l -> statistics_of lb st)) /\
  (0 < length d <= 16 -> l = [] -> foreign_split e op x d = Done (d, 0%Z)).
Proof.
  intros HE Hz Hl.
  assert (Eo : vec_split_op e op 0 (i_vec x) (length d) = vstatistics_split (e_set e) (e_sched e 0 0) (declared false (i_vec x)) (length d)).
  { destruct op; [done|]. cbn [vec_split_op]. exact (proj1 (proj2 (proj2 (C41_statistics_prec HE (e_set e) (e_sched e 0 0) (i_vec x)))) (length d)). }
  destruct (C21_split_real (e_set e) (e_sched e 0 0) (declared false (i_vec x)) (length d) l (conj eq_refl Hl) Hz) as (_ & S1 & S2).
  unfold foreign_split. rewrite Eo. split_and!.
  - intros Hk. by rewrite (S1 Hk), bind_Done.
  - intros Hk Hne. destruct (S2 Hk Hne) as (sts & E & Hs & Hb). rewrite E, bind_Done, (splice_whole d sts Hs), bind_Done. by exists sts.
  - intros Hk ->. rewrite (proj1 (C21_split_empty_refuted (e_set e) (e_sched e 0 0) (declared false (i_vec x)) (length d)) (conj eq_refl Hl) Hz Hk), bind_Done.
    unfold splice. cbn. by rewrite drop_0.
Qed.
Lemma complex_split_any op x c d : exact_ring A -> zero_neutral (A * A) -> vdata (i_vec x) = Done (complex_to_array c) ->
  (16 < length d -> foreign_complex_split e op x d = Done (d, 7%Z)) /\
  (0 < length d <= 16 -> c <> [] -> exists sts, foreign_complex_split e op x d = Done (sts, 0%Z) /\ length sts = length d /\
     forall b, b < length d -> exists lb st, is_bucket (length d) b c lb /\ sts !! b = Some st /\ totals_of lb st /\ (comparable c -> statistics_of lb st)) /\
  (0 < length d <= 16 -> c = [] -> foreign_complex_split e op x d = Done (d, 0%Z)).
Proof.
  intros HE Hz Hl.
  assert (Eo : match op with
        | Statistics => vstatistics_split_complex (e_set e) (e_sched e 0 0) (i_vec x) (length d)
        | Statistics_prec => vstatistics_split_prec_complex (e_set e) (e_sched e 0 0) (i_vec x) (length d)
        end = vstatistics_split_complex (e_set e) (e_sched e 0 0) (declared true (i_vec x)) (length d)).
  { destruct op; [done|]. exact (proj2 (proj2 (proj2 (C41_statistics_prec HE (e_set e) (e_sched e 0 0) (i_vec x)))) (length d)). }
  destruct (C21_split_complex (e_set e) (e_sched e 0 0) (declared true (i_vec x)) (length d) c (conj eq_refl Hl) Hz) as (_ & S1 & S2).
  unfold foreign_complex_split. rewrite Eo. split_and!.
  - intros Hk. by rewrite (S1 Hk), bind_Done.
  - intros Hk Hne. destruct (S2 Hk Hne) as (sts & E & Hs & Hb). rewrite E, bind_Done, (splice_whole d sts Hs), bind_Done. by exists sts.
  - intros Hk ->. rewrite (proj2 (C21_split_empty_refuted (e_set e) (e_sched e 0 0) (declared true (i_vec x)) (length d)) (conj eq_refl Hl) Hz Hk), bind_Done.
    unfold splice. cbn. by rewrite drop_0.
Qed.
Lemma aggregate_any {R} (null : R) f g x l : reals (i_vec x) l -> alloc_len (i_vec x) = len (i_vec x) -> l <> [] -> is_erroneous (i_vec x) = false ->
  exists y, combine_all g (imap (fun i y => f y i) l) = Ok y /\ foreign_aggregate e null f g x = Done (y, 0%Z).
Proof.
  intros Hl Ha Hne He. unfold foreign_aggregate, convert_scalar. rewrite (C22_map_aggregate f g (e_set e) (e_sched e 0 0) (i_vec x) l Hl Ha), bind_Done.
  destruct l as [|y l]; [done|]. cbn [imap combine_all]. eexists. split; [reflexivity|]. unfold get_error_marker. by rewrite He.
Qed.
Lemma complex_aggregate_any {R} (null : R) f g x c : cplx (i_vec x) c -> alloc_len (i_vec x) = len (i_vec x) -> c <> [] -> is_erroneous (i_vec x) = false ->
  exists y, combine_all g (imap (fun i y => f y i) c) = Ok y /\ foreign_complex_aggregate e null f g x = Done (y, 0%Z).
Proof.
  intros Hl Ha Hne He. unfold foreign_complex_aggregate, convert_scalar. rewrite (C22_map_aggregate_complex f g (e_set e) (e_sched e 0 0) (i_vec x) c Hl Ha), bind_Done.
  destruct c as [|y l]; [done|]. cbn [imap combine_all]. eexists. split; [reflexivity|]. unfold get_error_marker. by rewrite He.
Qed.
Lemma aggregate_wrong {R} (null : R) x f fc g :
  (is_complex (i_vec x) = true -> foreign_aggregate e null f g x = Done (null, 4%Z)) /\ (is_complex (i_vec x) = false -> foreign_complex_aggregate e null fc g x = Done (null, 3%Z)) /\
  (is_complex (i_vec x) = false -> elems (i_vec x) = [] -> foreign_aggregate e null f g x = Done (null, 12%Z)) /\
  (is_complex (i_vec x) = true -> elems (i_vec x) = [] -> foreign_complex_aggregate e null fc g x = Done (null, 12%Z)).
Proof.
  unfold foreign_aggregate, foreign_complex_aggregate, convert_scalar, map_aggregate, map_aggregate_complex.
  split_and!; intros E; rewrite E; try done; intros ->; done.
Qed.
End numbers.
