(** What happens outside of the domains in which sums, products and mappings are what they should be (C12, C22, C45). *)
From Verif Require Export Proof_Map Proof_Sum.

Section outside.
Context {A : Type} `{Num A}.

Lemma odd_storage_pairs (v : dvec A) : is_complex v = true -> ~ whole_points v -> array_to_complex (elems v) = Panicked.
Proof.
  intros Hc Hw. unfold array_to_complex. destruct (Nat.even (length (elems v))) eqn:E; [|done].
  exfalso. apply Hw. intros _. exact E.
Qed.

Lemma diff_odd_storage (v : dvec A) : is_complex v = true -> ~ whole_points v -> diff v = Panicked.
Proof.
  intros Hc Hw. unfold diff. rewrite Hc, odd_storage_pairs by done. unfold usub. by destruct (2 <=? len v).
Qed.
Lemma diff_with_start_odd_storage (v : dvec A) : is_complex v = true -> ~ whole_points v -> len v <> 0 -> diff_with_start v = Panicked.
Proof.
  intros Hc Hw Hn. unfold diff_with_start. rewrite (proj2 (Nat.eqb_neq _ _) Hn), Hc, odd_storage_pairs by done. done.
Qed.

Lemma map_inplace_odd_storage f s sched (v : dvec A) : is_complex v = true -> ~ whole_points v -> map_inplace_complex f s sched v = Panicked.
Proof.
  intros Hc Hw. unfold map_inplace_complex. rewrite Hc. cbn [negb]. rewrite execute_with_range_small.
  assert (E : length (elems v) mod 2 =? 0 = false).
  { destruct (length (elems v) mod 2 =? 0) eqn:E; [|done]. exfalso. apply Hw. intros _. apply Nat.eqb_eq in E.
    unfold alloc_len, s_len. fold (elems v). apply Nat.even_spec. exists (length (elems v) / 2).
    pose proof (Nat.div_mod (length (elems v)) 2). lia. }
  unfold block_steps. rewrite E, run_steps_cons. reflexivity.
Qed.
Lemma map_aggregate_odd_storage {R} (f : A * A -> nat -> R) g s order (v : dvec A) : is_complex v = true -> ~ whole_points v ->
  map_aggregate_complex f g s order v = Panicked.
Proof.
  intros Hc Hw. unfold map_aggregate_complex. rewrite Hc. cbn [negb].
  destruct (length (elems v) =? 0) eqn:E.
  - exfalso. apply Hw. intros _. unfold alloc_len, s_len. fold (elems v). apply Nat.eqb_eq in E. by rewrite E.
  - unfold map_on_array_chunks. cbv zeta. rewrite small_single. cbn [Nat.ltb Nat.leb]. unfold complex_piece.
    by rewrite odd_storage_pairs.
Qed.

Lemma alignment_len r addr n part : calc_data_alignment_reqs r addr n = Done part -> p_len part = n.
Proof.
  unfold calc_data_alignment_reqs. unfold umod, udiv. destruct (reg_bytes r); [done|]. rewrite bind_Done. destruct (elem_size r); [done|].
  rewrite bind_Done. destruct (_ =? 0) eqn:E; [|done]. cbn [assert_]. rewrite !bind_Done.
  destruct (_ <? _); [intros [= <-]; done|]. destruct (reg_len r); [done|]. rewrite bind_Done. intros [= <-]. done.
Qed.
Lemma slice_short {B} (l : list B) a b : length l < b -> slice l a b = Panicked.
Proof.
  intros Hb. unfold slice. destruct ((a <=? b) && (b <=? length l)) eqn:E; [|done].
  apply andb_true_iff in E as [_ E]. apply Nat.leb_le in E. lia.
Qed.
Lemma edge_iter_short {B} part (l : list B) : length l < p_len part -> edge_iter part l = Panicked.
Proof.
  intros Hl. unfold edge_iter. destruct (slice l 0 _); [rewrite bind_Done | done]. destruct (usub _ _); [rewrite bind_Done | done].
  by rewrite slice_short.
Qed.
Lemma cedge_iter_short {B} part (l : list B) : length l < p_len part / 2 -> cedge_iter part l = Panicked.
Proof.
  intros Hl. unfold cedge_iter. destruct (slice l 0 _); [rewrite bind_Done | done]. destruct (usub _ _); [rewrite bind_Done | done].
  by rewrite slice_short.
Qed.

Lemma dot_shorter `{Flt A} r addr s order (v o : dvec A) : wf v -> is_complex v = false -> len o < len v ->
  dot_product r addr s order v o = Panicked.
Proof.
  intros Hw Hc Hl. unfold dot_product, dot_real. rewrite Hc.
  destruct (slice (elems v) 0 (len v)) as [array|] eqn:Ea; [rewrite bind_Done | done].
  destruct (calc_data_alignment_reqs r addr (length array)) as [part|] eqn:Ep; [rewrite bind_Done | done].
  destruct (vdata o) as [other|] eqn:Eo; [rewrite bind_Done | done].
  destruct (center_range part) as [[from to]|]; [rewrite bind_Done | done].
  destruct (slice other from to); [rewrite bind_Done | done]. destruct (slice (elems v) from to); [rewrite bind_Done | done].
  destruct (get_zipped _ _ _ _ _ _ _ _); [rewrite bind_Done | done]. destruct (edge_iter part (elems v)); [rewrite bind_Done | done].
  apply alignment_len in Ep. pose proof (reals_len o other Eo). rewrite edge_iter_short; [done|]. rewrite Ep.
  assert (length array = len v); [|lia]. unfold slice in Ea. destruct (_ && _) eqn:E; [|done]. injection Ea as <-.
  apply andb_true_iff in E as [_ E]. apply Nat.leb_le in E. rewrite take_length, drop_length. lia.
Qed.

Lemma dot_complex_shorter `{Flt A} r addr s order (v o : dvec A) c co : cplx v c -> cplx o co -> vdomain v = vdomain o -> length co < length c ->
  dot_product_complex r addr s order v o = Panicked.
Proof.
  intros [Hc Hv] [Hoc Ho] Hd Hl. unfold dot_product_complex, dot_complex. rewrite Hc, Hoc, Hd. cbn [negb orb].
  assert (Hdd : ddomain_eqb (vdomain o) (vdomain o) = true) by (by destruct (vdomain o)). rewrite Hdd. cbn [negb].
  rewrite (vdata_slice v _ Hv), bind_Done.
  destruct (calc_data_alignment_reqs r addr _) as [part|] eqn:Ep; [rewrite bind_Done | done]. rewrite Ho, bind_Done.
  destruct (center_range part) as [[from to]|]; [rewrite bind_Done | done].
  destruct (slice (complex_to_array co) from to); [rewrite bind_Done | done]. destruct (slice (elems v) from to); [rewrite bind_Done | done].
  destruct (get_zipped _ _ _ _ _ _ _ _); [rewrite bind_Done | done].
  destruct (array_to_complex (elems v)); [rewrite bind_Done | done]. destruct (cedge_iter part _); [rewrite bind_Done | done].
  rewrite array_to_complex_Done, bind_Done. apply alignment_len in Ep. rewrite complex_to_array_length in Ep.
  rewrite cedge_iter_short; [done|]. rewrite Ep, Nat.mul_comm, Nat.div_mul by lia. done.
Qed.
End outside.
