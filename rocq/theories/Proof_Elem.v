From Verif Require Export Proof_SimdOps.

Section elem.
Context {A : Type} `{Num A}.

Lemma meta_disagree_spec (v o : dvec A) : meta_disagree v o = true <-> ~ meta_agree v o.
Proof.
  unfold meta_disagree, meta_agree. cbv zeta.
  destruct (is_complex v), (is_complex o), (vdomain v), (vdomain o), (nltb _ _), (nltb _ _); simpl; split; intros;
    repeat match goal with |- _ /\ _ => split | |- ~ _ => intros (? & ? & ? & ?) end; try done;
    exfalso; match goal with H : ~ _ |- _ => apply H end; done.
Qed.

Lemma small_single n s : (1 <? determine_number_of_chunks n Small s) = false.
Proof. unfold determine_number_of_chunks. destruct (core_limit s =? 1) eqn:E; [|done]. apply Nat.eqb_eq in E as ->. done. Qed.

Lemma from_src_to_dest_small s sched n w (target : list A) w' f :
  from_src_to_dest Small s sched n w target w' f = run_steps (f (0, n) 0 (length target)) target.
Proof. unfold from_src_to_dest. cbv zeta. by rewrite small_single. Qed.

Lemma zip_with_app_drop {B C D} (op : B -> C -> D) b l o :
  zip_with op (b ++ l) o = zip_with op b o ++ zip_with op l (drop (length b) o).
Proof. rewrite zip_with_app_l. by rewrite zip_with_take_r. Qed.

Lemma blockwise_zip w (op : A -> A -> A) o : blockwise w (fun off l => zip_with op l (drop off o)).
Proof. split; [done|]. intros off b l Hb. rewrite zip_with_app_drop, drop_drop, Hb. done. Qed.

Lemma pairs_of_drop {B} (l : list B) k : pairs_of (drop (2 * k) l) = drop k (pairs_of l).
Proof.
  revert l. induction k as [|k IH]; intros l; [by rewrite Nat.mul_0_r, !drop_0|].
  replace (2 * S k) with (S (S (2 * k))) by lia. destruct l as [|x [|y l]]; [by simpl; rewrite ?drop_nil | by simpl; rewrite ?drop_nil |].
  cbn [pairs_of drop skipn]. apply IH.
Qed.
Lemma pairs_of_take {B} (l : list B) k : pairs_of (take (2 * k) l) = take k (pairs_of l).
Proof.
  revert l. induction k as [|k IH]; intros l; [by rewrite Nat.mul_0_r, !take_0|].
  replace (2 * S k) with (S (S (2 * k))) by lia. destruct l as [|x [|y l]]; [by simpl; rewrite ?take_nil | by simpl; rewrite ?take_nil |].
  cbn [pairs_of take firstn]. f_equal. apply IH.
Qed.

Lemma blockwise_czip w (op : A * A -> A * A -> A * A) (o : list (A * A)) : Nat.even w = true ->
  blockwise w (fun off l => complex_to_array (zip_with op (pairs_of l) (drop (off / 2) o))).
Proof.
  intros Hw. split; [done|]. intros off b l Hb.
  rewrite pairs_of_app_even by (by rewrite Hb). rewrite zip_with_app_drop, complex_to_array_app. do 3 f_equal.
  rewrite drop_drop, pairs_of_length, Hb. f_equal. apply Nat.even_spec in Hw as [k ->]. rewrite div2_double.
  rewrite (Nat.mul_comm 2 k), Nat.div_add by lia. lia.
Qed.

Lemma bin_center r base (op : A -> A -> A) (C O : list A) : reg_ok r -> length O = length C -> C <> [] -> length C mod reg_len r = 0 ->
  run_steps (bin_steps r base (reg_bin op) O (0, length O) 0 (length C)) C =
  if base mod reg_bytes r =? 0 then Done (zip_with op C O) else Panicked.
Proof.
  intros Hr HO HC Hm. assert (Hl : 0 < reg_len r) by (by destruct Hr as (_ & ? & _)).
  unfold bin_steps. rewrite (block_steps_spec _ _ _ (fun off l => zip_with op l (drop off O)) 0); [|done|apply blockwise_zip|done|].
  - rewrite Nat.mul_0_l, Nat.add_0_r. unfold regs_check. rewrite Hm. destruct C; [done|]. simpl. rewrite andb_true_r.
    by rewrite drop_0.
  - intros _ i b Hi Hb. cbn [fst]. rewrite slice_Done by lia. rewrite bind_Done. unfold reg_bin. split.
    + f_equal. rewrite Nat.add_0_l.
      replace (i * reg_len r + reg_len r - i * reg_len r) with (length b) by lia. apply (zip_with_take_r op b).
    + rewrite zip_with_length, drop_length. lia.
Qed.

Lemma bin_ccenter r base (op : A * A -> A * A -> A * A) (c o : list (A * A)) :
  reg_ok r -> length o = length c -> c <> [] -> (2 * length c) mod reg_len r = 0 ->
  run_steps (bin_steps r base (reg_cbin op) (complex_to_array o) (0, length (complex_to_array o)) 0 (length (complex_to_array c)))
    (complex_to_array c) =
  if base mod reg_bytes r =? 0 then Done (complex_to_array (zip_with op c o)) else Panicked.
Proof.
  intros Hr HO HC Hm. assert (Hl : 0 < reg_len r) by (by destruct Hr as (_ & ? & _)).
  assert (Hev : Nat.even (reg_len r) = true) by (by destruct Hr as (_ & _ & ?)).
  unfold bin_steps. rewrite (block_steps_spec _ _ _ (fun off l => complex_to_array (zip_with op (pairs_of l) (drop (off / 2) o))) 0);
    [|done|by apply blockwise_czip|by rewrite complex_to_array_length|].
  - rewrite Nat.mul_0_l, Nat.add_0_r. unfold regs_check. rewrite complex_to_array_length, Hm.
    destruct (2 * length c =? 0) eqn:E; [destruct c; simpl in *; [done | lia]|]. cbn [orb]. rewrite Nat.eqb_refl, andb_true_r.
    change (0 / 2) with 0. by rewrite drop_0, pairs_of_complex_to_array.
  - intros _ i b Hi Hb. cbn [fst]. rewrite complex_to_array_length in Hi.
    rewrite slice_Done by (rewrite ?complex_to_array_length; lia). rewrite bind_Done. unfold reg_cbin.
    apply Nat.even_spec in Hev as [k Hk]. rewrite Nat.add_0_l.
    replace (i * reg_len r + reg_len r - i * reg_len r) with (2 * k) by lia.
    replace (0 + i * reg_len r) with (2 * (i * k)) by nia. replace (i * reg_len r) with (2 * (i * k)) by nia.
    rewrite pairs_of_take, pairs_of_drop, pairs_of_complex_to_array, div2_double.
    assert (Hpb : length (pairs_of b) = k) by (rewrite pairs_of_length, Hb, Hk; apply div2_double).
    split.
    + do 2 f_equal. rewrite <- Hpb. apply (zip_with_take_r op).
    + rewrite complex_to_array_length, zip_with_length, drop_length. nia.
Qed.

Theorem binary_op_ok r addr s sched (op : A -> A -> A) (v o : dvec A) l lo :
  reg_ok r -> elem_aligned r addr -> vdata v = Done l -> vdata o = Done lo -> length l = length lo -> meta_agree v o ->
  (simd_fits r addr (length l) ->
     exists v', binary_op r addr s sched (reg_bin op) op v o = Done (v', Ok tt) /\
       vdata v' = Done (zip_with op l lo) /\ same_meta v v' /\ same_rest v v') /\
  (~ simd_fits r addr (length l) -> binary_op r addr s sched (reg_bin op) op v o = Panicked).
Proof.
  intros Hr Ha Hv Ho Hlen Hmeta. destruct (vdata_split v l Hv) as (rest & He & Hn).
  assert (Hl : 0 < reg_len r) by (by destruct Hr as (_ & ? & _)).
  unfold binary_op. rewrite Ho. destruct (vdata_split o lo Ho) as (orest & Heo & Hno).
  unfold len. rewrite Hn, Hno, Hlen, Nat.eqb_refl. cbn [negb].
  destruct (meta_disagree v o) eqn:Em; [by apply meta_disagree_spec in Em|]. rewrite <- Hlen.
  destruct (calc_data_alignment_reqs_spec r addr (length l) Hr Ha) as (left & Hleft & Hlt & Hcase).
  pose proof (alignment_eq _ _ _ Hr Hleft) as Hleq.
  rewrite He, slice_pre, bind_Done.
  destruct Hcase as [[Hsmall ->]|[Hbig ->]]; rewrite !bind_Done.
  - split; [intros _ | intros Hnf; exfalso; apply Hnf; right; rewrite <- Hleq; lia].
    unfold center_range. cbn [p_left p_len p_right]. rewrite Nat.eqb_refl, bind_Done.
    rewrite !slice_Done by lia. rewrite !bind_Done, !Nat.sub_0_r, !take_0. cbn [length].
    rewrite from_src_to_dest_small. unfold bin_steps. cbn [length].
    pose proof (block_steps_spec (reg_len r) (regs_check r (addr + 0 * elem_size r + 0 * elem_size r) 0)
       (fun i b => o ← slice ([] : list A) (fst (0, 0) + i * reg_len r) (fst (0, 0) + i * reg_len r + reg_len r); Done (reg_bin op b o))
       (fun off l => zip_with op l []) 0 [] Hl) as Hb. cbn [length] in Hb. rewrite Hb; clear Hb.
    2: { split; [done|]. intros ? [|] [|] ?; done. }
    2: intros _; apply Nat.mod_0_l; lia.
    2: { intros _ i b Hi. lia. }
    unfold regs_check at 1. rewrite Nat.eqb_refl. cbn [orb zip_with]. rewrite bind_Done.
    rewrite splice_Done by (simpl; lia). rewrite bind_Done. rewrite take_0. cbn [app length Nat.add]. rewrite drop_0.
    rewrite slice_pre, bind_Done. unfold edge_iter. cbn [p_left p_len p_right].
    rewrite (slice_Done lo 0) by lia. rewrite bind_Done, usub_Done by lia. rewrite bind_Done, slice_Done by lia. rewrite bind_Done.
    rewrite !Nat.sub_0_r, Nat.sub_diag, take_0, app_nil_r, drop_0, take_ge, bind_Done by lia.
    pose proof (edge_update_zip_spec op l [] [] lo []) as Heu.
    cbn [app length Nat.add zip_with] in Heu. rewrite !app_nil_r, !Nat.add_0_r in Heu. rewrite Heu by done. rewrite bind_Done.
    rewrite splice_pre by (rewrite zip_with_length; lia). rewrite bind_Done.
    eexists. split; [reflexivity|]. apply (set_elems_after v l); try done. rewrite zip_with_length. lia.
  - destruct (parts_of l left (reg_len r)) as (L & C & R & HLCR & HL & HR & HCm & HC & HCl); [lia | lia |].
    rewrite <- HR. unfold center_range. cbn [p_left p_len p_right].
    assert (HCpos : 0 < length C) by (destruct C; [done | simpl; lia]).
    assert (Hll : length l = length L + length C + length R) by (rewrite HLCR, !app_length; lia).
    destruct (left =? length l) eqn:E; [lia|]. rewrite usub_Done by lia. rewrite !bind_Done.
    replace (length l - length R) with (length L + length C) by (clear -Hll; lia). rewrite <- HL in *.
    assert (Hlr : l ++ rest = L ++ C ++ R ++ rest) by (by rewrite HLCR, <- !app_assoc).
    assert (Hlo : exists OL OC OR, lo = OL ++ OC ++ OR /\ length OL = length L /\ length OC = length C /\ length OR = length R).
    { exists (take (length L) lo), (take (length C) (drop (length L) lo)), (drop (length L + length C) lo). split_and!.
      - rewrite <- (take_drop (length L) lo) at 1. f_equal. rewrite <- (take_drop (length C) (drop (length L) lo)) at 1.
        by rewrite drop_drop.
      - rewrite take_length. clear -Hll Hlen. lia.
      - rewrite take_length, drop_length. clear -Hll Hlen. lia.
      - rewrite drop_length. clear -Hll Hlen. lia. }
    destruct Hlo as (OL & OC & OR & Hlo & HOL & HOC & HOR).
    assert (Hso : slice lo (length L) (length L + length C) = Done OC).
    { rewrite <- HOL, <- HOC, Hlo. apply slice_mid. }
    rewrite Hso, !bind_Done, Hlr, !slice_mid, !bind_Done.
    rewrite !from_src_to_dest_small.
    rewrite !(bin_center r (addr + length L * elem_size r) op C OC) by done. split.
    + intros Hfits.
      assert (Hal : half_aligned r addr) by (destruct Hfits as [|Hf]; [done | rewrite <- Hleq in Hf; lia]).
      rewrite (left_aligned r addr (length L) Hr Hal Hleft). rewrite Nat.eqb_refl, bind_Done.
      assert (Hzc : length (zip_with op C OC) = length C) by (rewrite zip_with_length; lia).
      rewrite splice_mid by done. rewrite bind_Done.
      assert (Hll2 : length l = length (L ++ zip_with op C OC ++ R)) by (rewrite !app_length; lia).
      replace (L ++ zip_with op C OC ++ R ++ rest) with ((L ++ zip_with op C OC ++ R) ++ rest) by (by rewrite <- !app_assoc).
      rewrite (slice_pre' _ _ _ Hll2), bind_Done.
      unfold edge_iter. cbn [p_left p_len p_right].
      assert (Hs1 : slice lo 0 (length L) = Done OL) by (rewrite Hlo; by apply slice_pre').
      assert (Hs2 : slice lo (length l - length R) (length l) = Done OR).
      { replace (length l - length R) with (length (OL ++ OC)) by (clear -Hll HOL HOC; rewrite app_length; lia).
        replace (length l) with (length (OL ++ OC) + length OR) by (clear -Hll HOL HOC HOR; rewrite app_length; lia).
        rewrite Hlo. replace (OL ++ OC ++ OR) with ((OL ++ OC) ++ OR ++ []) by (by rewrite app_nil_r, <- app_assoc). apply slice_mid. }
      rewrite Hs1, bind_Done. rewrite usub_Done by lia. rewrite bind_Done, Hs2, !bind_Done.
      pose proof (edge_update_zip_spec op L (zip_with op C OC) R OL OR HOL HOR) as Heu. rewrite Hzc in Heu.
      rewrite Hll, Heu, bind_Done.
      rewrite splice_pre by (rewrite !app_length, !zip_with_length; lia). rewrite bind_Done.
      eexists. split; [reflexivity|].
      replace (zip_with op l lo) with (zip_with op L OL ++ zip_with op C OC ++ zip_with op R OR)
        by (by rewrite HLCR, Hlo, !zip_with_app).
      apply (set_elems_after v l); try done. rewrite !app_length, !zip_with_length. lia.
    + intros Hnf. assert (Hna : ~ half_aligned r addr) by (intros ?; apply Hnf; by left).
      by rewrite (not_half_aligned r addr (length L) Hr Hleft Hna).
Qed.

Theorem binary_complex_op_ok r addr s sched (op : A * A -> A * A -> A * A) (v o : dvec A) c co :
  reg_ok r -> elem_aligned r addr -> vdata v = Done (complex_to_array c) -> vdata o = Done (complex_to_array co) ->
  length c = length co -> meta_agree v o -> csimd_fits r addr (2 * length c) -> Nat.even (alloc_len v) = true ->
  exists v', binary_complex_op r addr s sched (reg_cbin op) op v o = Done (v', Ok tt) /\
    vdata v' = Done (complex_to_array (zip_with op c co)) /\ same_meta v v' /\ same_rest v v'.
Proof.
  intros Hr Ha Hv Ho Hlen Hmeta Hfits Heven. destruct (vdata_split v _ Hv) as (rest & He & Hn).
  assert (Hl : 0 < reg_len r) by (by destruct Hr as (_ & ? & _)).
  assert (Hev : Nat.even (reg_len r) = true) by (by destruct Hr as (_ & _ & ?)).
  pose proof (complex_to_array_length c) as Hcl. pose proof (complex_to_array_length co) as Hcol.
  assert (Hrest : exists cr, rest = complex_to_array cr).
  { apply exists_complex. unfold alloc_len, s_len in Heven. fold (elems v) in Heven. rewrite He, app_length, Hcl in Heven.
    rewrite Nat.even_add, even_double in Heven. by destruct (Nat.even (length rest)). }
  destruct Hrest as [crest ->].
  unfold binary_complex_op. rewrite Ho. destruct (vdata_split o _ Ho) as (orest & Heo & Hno).
  unfold len. rewrite Hn, Hno, Hcl, Hcol, Hlen, Nat.eqb_refl. cbn [negb].
  destruct (meta_disagree v o) eqn:Em; [by apply meta_disagree_spec in Em|]. rewrite <- Hlen.
  destruct (calc_data_alignment_reqs_spec r addr (2 * length c) Hr Ha) as (left & Hleft & Hlt & Hcase).
  pose proof (alignment_eq _ _ _ Hr Hleft) as Hleq.
  rewrite He, slice_pre', bind_Done by done.
  destruct Hcase as [[Hsmall ->]|[Hbig ->]]; rewrite !bind_Done.
  - unfold center_range. cbn [p_left p_len p_right]. rewrite Nat.eqb_refl, bind_Done.
    rewrite !(slice_Done _ 0 0) by lia. rewrite !bind_Done, !Nat.sub_0_r, !take_0. cbn [length].
    rewrite from_src_to_dest_small. unfold bin_steps. cbn [length].
    pose proof (block_steps_spec (reg_len r) (regs_check r (addr + 0 * elem_size r + 0 * elem_size r) 0)
       (fun i b => o ← slice ([] : list A) (fst (0, 0) + i * reg_len r) (fst (0, 0) + i * reg_len r + reg_len r); Done (reg_cbin op b o))
       (fun off l => @nil A) 0 [] Hl) as Hb. cbn [length] in Hb. rewrite Hb; clear Hb.
    2: { split; done. }
    2: intros _; apply Nat.mod_0_l; lia.
    2: { intros _ i b Hi. lia. }
    unfold regs_check at 1. rewrite Nat.eqb_refl. cbn [orb zip_with]. rewrite bind_Done.
    rewrite splice_Done by (simpl; lia). rewrite bind_Done. rewrite take_0. cbn [app length Nat.add]. rewrite drop_0.
    rewrite <- complex_to_array_app, (array_to_complex_Done (c ++ crest)), bind_Done, div2_double, slice_pre, bind_Done, array_to_complex_Done, bind_Done.
    unfold cedge_iter. cbn [p_left p_len p_right]. rewrite div2_double. change (0 / 2) with 0.
    rewrite (slice_Done co 0) by lia. rewrite bind_Done, usub_Done by lia. rewrite bind_Done, slice_Done by lia. rewrite bind_Done.
    rewrite !Nat.sub_0_r, Nat.sub_diag, take_0, app_nil_r, drop_0, take_ge, bind_Done by lia.
    pose proof (edge_update_zip_spec op c [] [] co []) as Heu.
    cbn [app length Nat.add zip_with] in Heu. rewrite !app_nil_r, !Nat.add_0_r in Heu. rewrite Heu by done. rewrite bind_Done.
    rewrite complex_to_array_app.
    rewrite splice_pre by (rewrite !complex_to_array_length, zip_with_length; lia). rewrite bind_Done.
    eexists. split; [reflexivity|]. apply (set_elems_after v (complex_to_array c)); try done.
    rewrite !complex_to_array_length, zip_with_length. lia.
  - assert (Hal : half_aligned r addr /\ point_aligned r addr) by (destruct Hfits as [|Hf]; [done | rewrite <- Hleq in Hf; lia]).
    destruct Hal as [Hal1 Hal2]. pose proof (left_even r addr left Hr Hal2 Hleft) as Hle.
    destruct (cparts_of c left (reg_len r)) as (cl & cc & cr & Hc & HL & HR & HCm & HC); [done | done | done | done |].
    rewrite <- HR. unfold center_range. cbn [p_left p_len p_right].
    assert (HCpos : 0 < length cc) by (destruct cc; [done | simpl; lia]).
    assert (Hll : length c = length cl + length cc + length cr) by (rewrite Hc, !app_length; lia).
    destruct (left =? 2 * length c) eqn:E; [lia|]. rewrite usub_Done by lia. rewrite !bind_Done.
    assert (Hlo : exists OL OC OR, co = OL ++ OC ++ OR /\ length OL = length cl /\ length OC = length cc /\ length OR = length cr).
    { exists (take (length cl) co), (take (length cc) (drop (length cl) co)), (drop (length cl + length cc) co). split_and!.
      - rewrite <- (take_drop (length cl) co) at 1. f_equal. rewrite <- (take_drop (length cc) (drop (length cl) co)) at 1.
        by rewrite drop_drop.
      - rewrite take_length. lia.
      - rewrite take_length, drop_length. lia.
      - rewrite drop_length. lia. }
    destruct Hlo as (OL & OC & OR & Hlo & HOL & HOC & HOR).
    assert (HL' : left = length (complex_to_array cl)) by (rewrite complex_to_array_length; lia).
    assert (HLo : left = length (complex_to_array OL)) by (rewrite complex_to_array_length; lia).
    assert (Hto : 2 * length c - 2 * length cr = length (complex_to_array cl) + length (complex_to_array cc))
      by (rewrite !complex_to_array_length; lia).
    assert (Hto' : 2 * length c - 2 * length cr = length (complex_to_array OL) + length (complex_to_array OC))
      by (rewrite !complex_to_array_length; lia).
    assert (Hso : slice (complex_to_array co) left (2 * length c - 2 * length cr) = Done (complex_to_array OC)).
    { rewrite Hto', HLo, Hlo, !complex_to_array_app. apply slice_mid. }
    rewrite Hso, bind_Done. clear Hso.
    assert (Hlr : complex_to_array c ++ complex_to_array crest =
                  complex_to_array cl ++ complex_to_array cc ++ complex_to_array cr ++ complex_to_array crest)
      by (by rewrite Hc, !complex_to_array_app, <- !app_assoc).
    rewrite Hto, HL', Hlr, slice_mid, bind_Done, from_src_to_dest_small.
    rewrite bin_ccenter by (done || lia). rewrite <- HL'.
    rewrite (left_aligned r addr left Hr Hal1 Hleft). rewrite Nat.eqb_refl, bind_Done, HL'.
    assert (Hzc : length (zip_with op cc OC) = length cc) by (rewrite zip_with_length; lia).
    rewrite splice_mid by (rewrite !complex_to_array_length; lia). rewrite bind_Done.
    rewrite <- !complex_to_array_app, (array_to_complex_Done (cl ++ zip_with op cc OC ++ cr ++ crest)), bind_Done.
    rewrite div2_double.
    replace (cl ++ zip_with op cc OC ++ cr ++ crest) with ((cl ++ zip_with op cc OC ++ cr) ++ crest) by (by rewrite <- !app_assoc).
    rewrite slice_pre' by (rewrite !app_length; lia). rewrite bind_Done, array_to_complex_Done, bind_Done.
    unfold cedge_iter. cbn [p_left p_len p_right]. rewrite complex_to_array_length, !div2_double.
    assert (Hs1 : slice co 0 (length cl) = Done OL) by (rewrite Hlo; by apply slice_pre').
    rewrite Hs1, bind_Done. rewrite usub_Done by lia. rewrite bind_Done.
    assert (Hs2 : slice co (length c - length cr) (length c) = Done OR).
    { replace (length c - length cr) with (length (OL ++ OC)) by (rewrite app_length; lia).
      replace (length c) with (length (OL ++ OC) + length OR) by (rewrite app_length; lia).
      rewrite Hlo. replace (OL ++ OC ++ OR) with ((OL ++ OC) ++ OR ++ []) by (by rewrite app_nil_r, <- app_assoc). apply slice_mid. }
    rewrite Hs2, !bind_Done.
    pose proof (edge_update_zip_spec op cl (zip_with op cc OC) cr OL OR HOL HOR) as Heu. rewrite Hzc in Heu.
    rewrite Hll, Heu, bind_Done.
    rewrite complex_to_array_app.
    rewrite splice_pre by (rewrite !complex_to_array_length, !app_length, !zip_with_length; lia). rewrite bind_Done.
    eexists. split; [reflexivity|].
    replace (zip_with op c co) with (zip_with op cl OL ++ zip_with op cc OC ++ zip_with op cr OR)
      by (by rewrite Hc, Hlo, !zip_with_app).
    apply (set_elems_after v (complex_to_array c)); try done. rewrite !complex_to_array_length, !app_length, !zip_with_length. lia.
Qed.
End elem.
