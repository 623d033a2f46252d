From Verif Require Export Proof_Elem.

Lemma same_is_complex {A} (v v' : dvec A) : same_meta v v' -> is_complex v' = is_complex v.
Proof. intros (_ & _ & H). unfold is_complex. by rewrite H. Qed.

Lemma reals_len {A} (v : dvec A) l : vdata v = Done l -> len v = length l.
Proof. intros H. apply vdata_inv in H as (H & _). done. Qed.

Section elemops.
Context {A : Type} `{Num A}.

Lemma zip_add_complex (op : A -> A -> A) (c co : list (A * A)) :
  zip_with op (complex_to_array c) (complex_to_array co) =
  complex_to_array (zip_with (fun x y => (op (fst x) (fst y), op (snd x) (snd y))) c co).
Proof. revert co. induction c as [|[x y] c IH]; intros [|[x' y'] co]; try done. cbn [complex_to_array zip_with]. by rewrite IH. Qed.

(** Errors leave the vector as it was. *)
Lemma binary_op_err r addr s sched simd_op op (v o : dvec A) :
  (len v <> len o -> binary_op r addr s sched simd_op op v o = Done (v, Err InputMustHaveTheSameSize)) /\
  (len v = len o -> ~ meta_agree v o -> binary_op r addr s sched simd_op op v o = Done (v, Err InputMetaDataMustAgree)).
Proof.
  unfold binary_op. split.
  - intros Hn. apply Nat.eqb_neq in Hn. by rewrite Hn.
  - intros -> Hm. apply meta_disagree_spec in Hm. by rewrite Nat.eqb_refl, Hm.
Qed.

Lemma address_ok_real r addr (v : dvec A) l : vdata v = Done l -> address_ok r addr v -> simd_fits r addr (length l).
Proof. intros Hv [[Ha _]|Ha]; [by left|right]. by rewrite <- (reals_len v l Hv). Qed.

Lemma address_ok_cplx r addr (v : dvec A) c : cplx v c -> address_ok r addr v -> csimd_fits r addr (2 * length c).
Proof.
  intros [Hc Hv] [[Ha Hp]|Ha]; [left; auto|right]. pose proof (reals_len v _ Hv) as Hl. rewrite complex_to_array_length in Hl. lia.
Qed.

Lemma binary_op_spec (op : A -> A -> A) :
  op_spec op (fun x y => (op (fst x) (fst y), op (snd x) (snd y))) false
    (fun r addr s sched v o => binary_op r addr s sched (reg_bin op) op v o).
Proof.
  intros r addr s sched v o Hr Ha. destruct (binary_op_err r addr s sched (reg_bin op) op v o) as [H1 H2].
  split_and!; [done | done |]. intros Hl Hm Hok _. split.
  - intros l lo [Hv1 Hv2] [Ho1 Ho2].
    destruct (binary_op_ok r addr s sched op v o l lo) as [Hsucc _]; try done.
    { rewrite <- (reals_len v l Hv2), <- (reals_len o lo Ho2). done. }
    destruct (Hsucc (address_ok_real _ _ _ _ Hv2 Hok)) as (v' & -> & Hd & Hmt & Hrest). exists v'. split_and!; try done.
    split; [by rewrite (same_is_complex _ _ Hmt) | done].
  - intros c co [Hv1 Hv2] [Ho1 Ho2].
    destruct (binary_op_ok r addr s sched op v o (complex_to_array c) (complex_to_array co)) as [Hsucc _]; try done.
    { rewrite <- (reals_len v _ Hv2), <- (reals_len o _ Ho2). done. }
    destruct (Hsucc (address_ok_real _ _ _ _ Hv2 Hok)) as (v' & -> & Hd & Hmt & Hrest). exists v'. split_and!; try done.
    split; [by rewrite (same_is_complex _ _ Hmt) | by rewrite Hd, zip_add_complex].
Qed.

Theorem vadd_spec : op_spec nadd cadd false vadd.
Proof. apply binary_op_spec. Qed.
Theorem vsub_spec : op_spec nsub csub false vsub.
Proof. apply binary_op_spec. Qed.

Lemma mul_like (rop : A -> A -> A) cop :
  op_spec rop cop true (fun r addr s sched v o =>
    if negb (len v =? len o) then Done (v, Err InputMustHaveTheSameSize)
    else if meta_disagree v o then Done (v, Err InputMetaDataMustAgree)
    else if is_complex v then binary_complex_op r addr s sched (reg_cbin cop) cop v o
    else binary_op r addr s sched (reg_bin rop) rop v o).
Proof.
  intros r addr s sched v o Hr Ha. split_and!.
  - intros Hn. apply Nat.eqb_neq in Hn. by rewrite Hn.
  - intros -> Hm. apply meta_disagree_spec in Hm. by rewrite Nat.eqb_refl, Hm.
  - intros Hl Hm Hok Hw. rewrite Hl, Nat.eqb_refl. cbn [negb].
    destruct (meta_disagree v o) eqn:Em; [by apply meta_disagree_spec in Em|]. split.
    + intros l lo Hv Ho. destruct (binary_op_spec rop r addr s sched v o Hr Ha) as (_ & _ & H3).
      destruct (H3 Hl Hm Hok I) as [H4 _]. destruct Hv as [Hv1 Hv2]. rewrite Hv1. apply H4; done.
    + intros c co Hv Ho. destruct Hv as [Hv1 Hv2], Ho as [Ho1 Ho2]. rewrite Hv1.
      destruct (binary_complex_op_ok r addr s sched cop v o c co) as (v' & -> & Hd & Hmt & Hrest); try done.
      { apply (reals_len v) in Hv2. apply (reals_len o) in Ho2. rewrite complex_to_array_length in Hv2, Ho2. lia. }
      { by apply address_ok_cplx with v. }
      { by apply Hw. }
      exists v'. split_and!; try done. split; [by rewrite (same_is_complex _ _ Hmt) | done].
Qed.

Theorem vmul_spec : op_spec nmul cmul true vmul.
Proof. apply mul_like. Qed.
Theorem vdiv_spec : op_spec ndiv cdiv true vdiv.
Proof. apply mul_like. Qed.

(** A complex vector with an odd storage: multiplication panics. *)
Theorem complex_odd_storage r addr s sched (v o : dvec A) c co :
  reg_ok r -> elem_aligned r addr -> address_ok r addr v -> cplx v c -> cplx o co -> length c = length co -> meta_agree v o ->
  Nat.even (alloc_len v) = false -> vmul r addr s sched v o = Panicked.
Proof.
  intros Hr Ha Hok [Hv1 Hv2] [Ho1 Ho2] Hlen Hmeta Hodd. unfold vmul.
  assert (Hll : len v = len o). { rewrite (reals_len v _ Hv2), (reals_len o _ Ho2), !complex_to_array_length. lia. }
  rewrite Hll, Nat.eqb_refl. cbn [negb]. destruct (meta_disagree v o) eqn:Em; [by apply meta_disagree_spec in Em|]. rewrite Hv1.
  unfold binary_complex_op. rewrite Hll, Nat.eqb_refl, Em. cbn [negb]. rewrite Ho2.
  destruct (slice (elems v) 0 (valid_len v)); [|done]. rewrite bind_Done.
  destruct (calc_data_alignment_reqs r addr (valid_len v)) as [part|]; [|done]. rewrite !bind_Done.
  destruct (center_range part) as [[from to]|]; [|done]. rewrite bind_Done.
  destruct (slice (complex_to_array co) from to); [|done]. rewrite bind_Done.
  destruct (slice (elems v) from to); [|done]. rewrite bind_Done.
  set (fd := from_src_to_dest _ _ _ _ _ _ _ _). destruct fd as [t|]; [|simpl; done]. rewrite bind_Done.
  destruct (splice (elems v) from t) as [l'|] eqn:E; [|done]. rewrite bind_Done.
  assert (Hp : array_to_complex l' = Panicked); [|by rewrite Hp].
  unfold splice in E. destruct (_ <=? _) eqn:E'; [|done]. injection E as <-. apply Nat.leb_le in E'.
  unfold array_to_complex.
  replace (Nat.even (length (take from (elems v) ++ t ++ drop (from + length t) (elems v)))) with false; [done|].
  rewrite <- Hodd. unfold alloc_len, s_len. fold (elems v). f_equal. rewrite !app_length, take_length, drop_length. lia.
Qed.

(** ** Smaller operands *)

Definition cyc_op {P} (op : P -> P -> P) (lo : list P) (i : nat) (x : P) : P :=
  match lo !! (i mod length lo) with Some y => op x y | None => x end.

Lemma combined_cyc {P} (op : P -> P -> P) (l lo : list P) : combined_cyclic op l lo (imap (cyc_op op lo) l).
Proof.
  split; [apply imap_length|]. intros i x y Hx Hy. rewrite list_lookup_imap, Hx. simpl. unfold cyc_op. by rewrite Hy.
Qed.

Lemma binary_smaller_ok r s sched (op : A -> A -> A) (v o : dvec A) l lo :
  vdata v = Done l -> vdata o = Done lo -> lo <> [] -> length l mod length lo = 0 -> meta_agree v o ->
  exists v', binary_smaller_op r s sched op v o = Done (v', Ok tt) /\ vdata v' = Done (imap (cyc_op op lo) l) /\
    same_meta v v' /\ same_rest v v'.
Proof.
  intros Hv Ho Hne Hmod Hmeta. assert (Hpos : 0 < length lo) by (destruct lo; [done | simpl; lia]).
  unfold binary_smaller_op. rewrite (reals_len v l Hv), (reals_len o lo Ho). rewrite umod_Done by lia.
  rewrite bind_Done, Hmod. cbn [Nat.eqb negb]. destruct (meta_disagree v o) eqn:Em; [by apply meta_disagree_spec in Em|].
  rewrite Ho, bind_Done. destruct (vdata_split v l Hv) as (rest & He & Hn). rewrite He, Hn, slice_pre, bind_Done.
  rewrite from_src_to_dest_small. cbn [fst].
  rewrite (elem_steps_spec _ (cyc_op op lo)).
  - rewrite bind_Done, splice_pre by apply imap_length. rewrite bind_Done. eexists. split; [reflexivity|].
    apply (set_elems_after v l); try done. apply imap_length.
  - intros i x _. rewrite umod_Done by lia. rewrite bind_Done, Nat.add_0_l.
    destruct (rd_lt lo (i mod length lo)) as (y & Hy & ->); [apply Nat.mod_upper_bound; lia|]. rewrite bind_Done.
    unfold cyc_op. by rewrite Hy.
Qed.

Lemma imap_cyc_complex (op : A -> A -> A) (c co : list (A * A)) : co <> [] ->
  imap (cyc_op op (complex_to_array co)) (complex_to_array c) =
  complex_to_array (imap (cyc_op (fun x y => (op (fst x) (fst y), op (snd x) (snd y))) co) c).
Proof.
  intros Hne. assert (Hpos : 0 < length co) by (destruct co; [done | simpl; lia]).
  apply list_eq. intros j.
  assert (Hj : exists i, j = 2 * i \/ j = 2 * i + 1).
  { exists (j / 2). pose proof (Nat.div_mod j 2 ltac:(lia)). pose proof (Nat.mod_upper_bound j 2 ltac:(lia)). lia. }
  destruct Hj as [i Hj].
  assert (Hmi : i mod length co < length co) by (apply Nat.mod_upper_bound; lia).
  destruct (lookup_lt_is_Some_2 co _ Hmi) as [y Hy].
  pose proof (complex_to_array_lookup c i) as [Hc0 Hc1].
  pose proof (complex_to_array_lookup co (i mod length co)) as [Ho0 Ho1]. rewrite Hy in Ho0, Ho1.
  pose proof (complex_to_array_lookup (imap (cyc_op (fun x y => (op (fst x) (fst y), op (snd x) (snd y))) co) c) i) as [Hr0 Hr1].
  rewrite list_lookup_imap in Hr0, Hr1.
  assert (Hm0 : (2 * i) mod (2 * length co) = 2 * (i mod length co)) by (apply Nat.mul_mod_distr_l; lia).
  assert (Hm1 : (2 * i + 1) mod (2 * length co) = 2 * (i mod length co) + 1).
  { pose proof (Nat.div_mod i (length co) ltac:(lia)) as Hd. symmetry.
    apply Nat.mod_unique with (i / length co); [lia|]. nia. }
  destruct Hj as [->| ->]; rewrite list_lookup_imap.
  - rewrite Hc0, Hr0. destruct (c !! i) as [[a b]|]; [|done]. cbn [fmap option_fmap option_map fst snd].
    unfold cyc_op. rewrite complex_to_array_length, Hm0, Ho0, Hy. done.
  - rewrite Hc1, Hr1. destruct (c !! i) as [[a b]|]; [|done]. cbn [fmap option_fmap option_map fst snd].
    unfold cyc_op. rewrite complex_to_array_length, Hm1, Ho1, Hy. done.
Qed.

Lemma blockwise_cyc (op : A * A -> A * A -> A * A) (co : list (A * A)) :
  blockwise 2 (fun off l => complex_to_array (imap (fun i => cyc_op op co (off / 2 + i)) (pairs_of l))).
Proof.
  split; [done|]. intros off b l Hb. rewrite pairs_of_app_even by (by rewrite Hb). rewrite imap_app, complex_to_array_app.
  do 2 f_equal. apply imap_ext. intros i x _. unfold compose. f_equal. rewrite pairs_of_length, Hb. change (2 / 2) with 1.
  replace (off + 2) with (off + 1 * 2) by lia. rewrite Nat.div_add by lia. lia.
Qed.

Lemma binary_smaller_complex_ok r s sched (op : A * A -> A * A -> A * A) (v o : dvec A) c co :
  vdata v = Done (complex_to_array c) -> vdata o = Done (complex_to_array co) -> co <> [] ->
  length c mod length co = 0 -> meta_agree v o ->
  exists v', binary_smaller_complex_op r s sched op v o = Done (v', Ok tt) /\
    vdata v' = Done (complex_to_array (imap (cyc_op op co) c)) /\ same_meta v v' /\ same_rest v v'.
Proof.
  intros Hv Ho Hne Hmod Hmeta. assert (Hpos : 0 < length co) by (destruct co; [done | simpl; lia]).
  unfold binary_smaller_complex_op. rewrite (reals_len v _ Hv), (reals_len o _ Ho), !complex_to_array_length. rewrite umod_Done by lia.
  rewrite bind_Done, Nat.mul_mod_distr_l, Hmod, Nat.mul_0_r by lia. cbn [Nat.eqb negb].
  destruct (meta_disagree v o) eqn:Em; [by apply meta_disagree_spec in Em|].
  rewrite Ho, bind_Done. destruct (vdata_split v _ Hv) as (rest & He & Hn). rewrite He, Hn, slice_pre, bind_Done.
  rewrite from_src_to_dest_small. rewrite run_steps_cons, array_to_complex_Done, !bind_Done. cbn [fst].
  rewrite (block_steps_spec 2 _ _ (fun off l => complex_to_array (imap (fun i => cyc_op op co (off / 2 + i)) (pairs_of l))) 0).
  - rewrite complex_to_array_length, (Nat.mul_comm 2), Nat.mod_mul by lia. rewrite Nat.eqb_refl, bind_Done, pairs_of_complex_to_array.
    change (0 / 2) with 0. rewrite (imap_ext _ (cyc_op op co)) by done.
    rewrite splice_pre by (by rewrite !complex_to_array_length, imap_length). rewrite bind_Done.
    eexists. split; [reflexivity|]. apply (set_elems_after v (complex_to_array c)); try done.
    by rewrite !complex_to_array_length, imap_length.
  - lia.
  - apply blockwise_cyc.
  - intros Hp. by apply Nat.eqb_eq in Hp.
  - intros _ i b _ Hb. rewrite bind_Done, Nat.add_0_l. rewrite umod_Done by lia. rewrite bind_Done.
    destruct (rd_lt co (i mod length co)) as (y & Hy & ->); [apply Nat.mod_upper_bound; lia|]. rewrite bind_Done.
    destruct b as [|a [|b [|]]]; try done. cbn [pairs_of imap]. unfold on_pairs. cbn [pairs_of map].
    rewrite Nat.add_0_r, Nat.add_0_l, (Nat.div_mul i 2) by lia. unfold cyc_op. rewrite Hy. split; [|by destruct (op (a, b) y)].
    cbn [complex_to_array imap]. done.
Qed.

Lemma binary_smaller_err r s sched op (v o : dvec A) :
  (len o = 0 -> binary_smaller_op r s sched op v o = Panicked) /\
  (len o <> 0 -> len v mod len o <> 0 -> binary_smaller_op r s sched op v o = Done (v, Err InvalidArgumentLength)) /\
  (len o <> 0 -> len v mod len o = 0 -> ~ meta_agree v o -> binary_smaller_op r s sched op v o = Done (v, Err InputMetaDataMustAgree)).
Proof.
  unfold binary_smaller_op. split_and!.
  - by intros ->.
  - intros Hz Hm. rewrite umod_Done by done. rewrite bind_Done. apply Nat.eqb_neq in Hm. by rewrite Hm.
  - intros Hz Hm Hd. rewrite umod_Done by done. rewrite bind_Done, Hm, Nat.eqb_refl. apply meta_disagree_spec in Hd. by rewrite Hd.
Qed.

Lemma len_mod_points (v o : dvec A) c co : vdata v = Done (complex_to_array c) -> vdata o = Done (complex_to_array co) ->
  len o <> 0 -> len v mod len o = 0 -> co <> [] /\ length c mod length co = 0.
Proof.
  intros Hv Ho. rewrite (reals_len v _ Hv), (reals_len o _ Ho), !complex_to_array_length. intros Hz Hm.
  rewrite Nat.mul_mod_distr_l in Hm by lia. split; [by intros -> | lia].
Qed.

Lemma smaller_real_spec (op : A -> A -> A) :
  smaller_spec op (fun x y => (op (fst x) (fst y), op (snd x) (snd y))) (fun r s sched => binary_smaller_op r s sched op).
Proof.
  intros r s sched v o. destruct (binary_smaller_err r s sched op v o) as (H1 & H2 & H3). split_and!; try done.
  intros Hz Hm Hag. split.
  - intros l lo [Hv1 Hv2] [Ho1 Ho2].
    assert (lo <> []) by (intros ->; by rewrite (reals_len o [] Ho2) in Hz).
    destruct (binary_smaller_ok r s sched op v o l lo) as (v' & -> & Hd & Hmt & Hr); try done.
    { by rewrite <- (reals_len v l Hv2), <- (reals_len o lo Ho2). }
    exists v', (imap (cyc_op op lo) l). split_and!; try done; [| apply combined_cyc..].
    split; [by rewrite (same_is_complex _ _ Hmt) | done].
  - intros c co [Hv1 Hv2] [Ho1 Ho2]. destruct (len_mod_points v o c co Hv2 Ho2 Hz Hm) as [Hne Hmod].
    destruct (binary_smaller_ok r s sched op v o (complex_to_array c) (complex_to_array co)) as (v' & -> & Hd & Hmt & Hr); try done.
    { destruct co as [|[]]; done. }
    { by rewrite <- (reals_len v _ Hv2), <- (reals_len o _ Ho2). }
    eexists v', _. split_and!; try done.
    + split; [by rewrite (same_is_complex _ _ Hmt)|]. rewrite Hd, imap_cyc_complex by done. done.
    + apply combined_cyc.
Qed.

Theorem add_smaller_spec : smaller_spec nadd cadd add_smaller.
Proof. apply smaller_real_spec. Qed.
Theorem sub_smaller_spec : smaller_spec nsub csub sub_smaller.
Proof. apply smaller_real_spec. Qed.

Lemma mul_smaller_like (rop : A -> A -> A) cop :
  smaller_spec rop cop (fun r s sched v o =>
    rest ← umod (len v) (len o);
    if negb (rest =? 0) then Done (v, Err InvalidArgumentLength)
    else if meta_disagree v o then Done (v, Err InputMetaDataMustAgree)
    else if is_complex v then binary_smaller_complex_op r s sched cop v o
    else binary_smaller_op r s sched rop v o).
Proof.
  intros r s sched v o. split_and!.
  - by intros ->.
  - intros Hz Hm. rewrite umod_Done by done. rewrite bind_Done. apply Nat.eqb_neq in Hm. by rewrite Hm.
  - intros Hz Hm Hd. rewrite umod_Done by done. rewrite bind_Done, Hm, Nat.eqb_refl. apply meta_disagree_spec in Hd. by rewrite Hd.
  - intros Hz Hm Hag. rewrite umod_Done by done. rewrite bind_Done, Hm, Nat.eqb_refl. cbn [negb].
    destruct (meta_disagree v o) eqn:Em; [by apply meta_disagree_spec in Em|]. split.
    + intros l lo Hv Ho. destruct (smaller_real_spec rop r s sched v o) as (_ & _ & _ & H4).
      destruct (H4 Hz Hm Hag) as [H5 _]. destruct Hv as [Hv1 Hv2]. rewrite Hv1. by apply H5.
    + intros c co [Hv1 Hv2] [Ho1 Ho2]. destruct (len_mod_points v o c co Hv2 Ho2 Hz Hm) as [Hne Hmod]. rewrite Hv1.
      destruct (binary_smaller_complex_ok r s sched cop v o c co) as (v' & -> & Hd & Hmt & Hr); try done.
      eexists v', _. split_and!; try done.
      * split; [by rewrite (same_is_complex _ _ Hmt) | done].
      * apply combined_cyc.
Qed.

Theorem mul_smaller_spec : smaller_spec nmul cmul mul_smaller.
Proof. apply mul_smaller_like. Qed.
Theorem div_smaller_spec : smaller_spec ndiv cdiv div_smaller.
Proof. apply mul_smaller_like. Qed.

(** ** Scaling and offset *)

Lemma reg_bin_splat (op : A -> A -> A) r y b : length b = reg_len r -> reg_bin op b (splat r y) = map (fun x => op x y) b.
Proof.
  unfold reg_bin, splat. intros <-. induction b as [|x b IH]; [done|]. cbn [length replicate zip_with map]. by rewrite IH.
Qed.

Lemma reg_bin_from_complex (op : A -> A -> A) r y b : reg_ok r -> length b = reg_len r ->
  reg_bin op b (from_complex r y) = on_pairs (fun x => (op (fst x) (fst y), op (snd x) (snd y))) b.
Proof.
  intros (_ & _ & Hev) Hb. rewrite <- Hb in Hev. destruct (exists_complex b Hev) as [c ->].
  rewrite complex_to_array_length in Hb. unfold from_complex, reg_bin. rewrite <- Hb, div2_double, on_pairs_complex.
  clear Hev Hb. induction c as [|[x1 x2] c IH]; [done|]. destruct y as [y1 y2]. cbn [length replicate complex_to_array zip_with map] in *.
  by rewrite IH.
Qed.

Theorem scale_real_spec r addr s sched k (v : dvec A) :
  reg_ok r -> elem_aligned r addr -> simd_fits r addr (len v) ->
  (forall l, reals v l -> exists v', scale_real r addr s sched k v = Done v' /\ reals v' (map (fun x => x * k)%num l) /\ same_meta v v' /\ same_rest v v') /\
  (forall c, cplx v c -> exists v', scale_real r addr s sched k v = Done v' /\
     cplx v' (map (fun x => (fst x * k, snd x * k)%num) c) /\ same_meta v v' /\ same_rest v v').
Proof.
  intros Hr Ha Hok. unfold scale_real. split.
  - intros l [Hv1 Hv2].
    destruct (simd_real_operation_spec r addr s sched (fun x => reg_bin nmul x (splat r k)) (fun x => x * k)%num Small v l) as [Hs _]; try done.
    { unfold no_threads_for_nothing. pose proof (small_single 0 s). lia. }
    { intros b Hb. by apply reg_bin_splat. }
    rewrite (reals_len v l Hv2) in Hok. destruct (Hs Hok) as (v' & -> & Hd & Hm & Hrr). exists v'. split_and!; try done.
    split; [by rewrite (same_is_complex _ _ Hm) | done].
  - intros c [Hv1 Hv2].
    destruct (simd_real_operation_spec r addr s sched (fun x => reg_bin nmul x (splat r k)) (fun x => x * k)%num Small v (complex_to_array c)) as [Hs _]; try done.
    { unfold no_threads_for_nothing. pose proof (small_single 0 s). lia. }
    { intros b Hb. by apply reg_bin_splat. }
    rewrite (reals_len v _ Hv2) in Hok. destruct (Hs Hok) as (v' & -> & Hd & Hm & Hrr). exists v'. split_and!; try done.
    split; [by rewrite (same_is_complex _ _ Hm)|]. rewrite Hd. f_equal. clear. induction c as [|[x y] c IH]; [done|].
    cbn [complex_to_array map]. by rewrite IH.
Qed.

Lemma small_nothing s : no_threads_for_nothing Small s.
Proof. unfold no_threads_for_nothing. pose proof (small_single 0 s). lia. Qed.

Theorem offset_real_spec r addr s sched k (v : dvec A) :
  reg_ok r -> elem_aligned r addr -> address_ok r addr v ->
  (forall l, reals v l -> exists v', offset_real r addr s sched k v = Done v' /\ reals v' (map (fun x => x + k)%num l) /\ same_meta v v' /\ same_rest v v') /\
  (forall c, cplx v c -> exists v', offset_real r addr s sched k v = Done v' /\
     cplx v' (map (fun x => cadd x (k, n0)) c) /\ same_meta v v' /\ same_rest v v').
Proof.
  intros Hr Ha Hok. unfold offset_real. split.
  - intros l [Hv1 Hv2]. rewrite Hv1.
    destruct (simd_real_operation_spec r addr s sched (fun x => reg_bin nadd x (splat r k)) (fun x => x + k)%num Small v l) as [Hs _]; try done.
    { apply small_nothing. }
    { intros b Hb. by apply reg_bin_splat. }
    destruct (Hs (address_ok_real _ _ _ _ Hv2 Hok)) as (v' & -> & Hd & Hm & Hrr). exists v'. split_and!; try done.
    split; [by rewrite (same_is_complex _ _ Hm) | done].
  - intros c [Hv1 Hv2]. rewrite Hv1.
    destruct (simd_complex_operation_spec r addr s sched (fun x => reg_bin nadd x (from_complex r (k, n0))) (fun x => cadd x (k, n0)) Small v c) as (v' & -> & Hd & Hm & Hrr); try done.
    { apply small_nothing. }
    { intros b Hb. by apply reg_bin_from_complex. }
    { by apply address_ok_cplx with v. }
    exists v'. split_and!; try done. split; [by rewrite (same_is_complex _ _ Hm) | done].
Qed.

Theorem offset_complex_spec r addr s sched k (v : dvec A) c :
  reg_ok r -> elem_aligned r addr -> address_ok r addr v -> cplx v c ->
  exists v', offset_complex r addr s sched k v = Done v' /\ cplx v' (map (fun x => cadd x k) c) /\ same_meta v v' /\ same_rest v v'.
Proof.
  intros Hr Ha Hok Hv. destruct Hv as [Hv1 Hv2]. unfold offset_complex. rewrite Hv1. cbn [negb].
  destruct (simd_complex_operation_spec r addr s sched (fun x => reg_bin nadd x (from_complex r k)) (fun x => cadd x k) Small v c) as (v' & -> & Hd & Hm & Hrr); try done.
  { apply small_nothing. }
  { intros b Hb. by apply reg_bin_from_complex. }
  { by apply address_ok_cplx with v. }
  exists v'. split_and!; try done. split; [by rewrite (same_is_complex _ _ Hm) | done].
Qed.

Theorem scale_complex_spec r addr s sched k (v : dvec A) c :
  reg_ok r -> elem_aligned r addr -> address_ok r addr v -> cplx v c ->
  exists v', scale_complex r addr s sched k v = Done v' /\ cplx v' (map (fun x => cmul x k) c) /\ same_meta v v' /\ same_rest v v'.
Proof.
  intros Hr Ha Hok Hv. destruct Hv as [Hv1 Hv2]. unfold scale_complex. rewrite Hv1. cbn [negb].
  destruct (simd_complex_operation_spec r addr s sched (fun x => on_pairs (fun p => cmul p k) x) (fun x => cmul x k) Small v c) as (v' & -> & Hd & Hm & Hrr); try done.
  { apply small_nothing. }
  { by apply address_ok_cplx with v. }
  exists v'. split_and!; try done. split; [by rewrite (same_is_complex _ _ Hm) | done].
Qed.

(** A complex factor or offset poisons a real vector. *)
Theorem complex_scalar_on_real r addr s sched k (v : dvec A) : is_complex v = false ->
  scale_complex r addr s sched k v = Done (mark_vector_as_invalid v) /\ offset_complex r addr s sched k v = Done (mark_vector_as_invalid v).
Proof. intros Hc. unfold scale_complex, offset_complex. by rewrite Hc. Qed.
End elemops.
