From Verif Require Export Proof_SimdOps.

(** The elements in front of the first aligned register and behind the last one are computed by the scalar operation, the ones between by the one of the registers. *)
Theorem simd_real_operation_mixed {A} r addr s sched (simd_op : list A -> list A) lane_op scalar_op co (v : dvec A) l :
  reg_ok r -> elem_aligned r addr -> no_threads_for_nothing co s -> vdata v = Done l ->
  (forall b, length b = reg_len r -> simd_op b = map lane_op b) ->
  simd_fits r addr (length l) ->
  exists v' L C R, l = L ++ C ++ R /\ simd_real_operation r addr s sched simd_op scalar_op co v = Done v' /\
    vdata v' = Done (map scalar_op L ++ map lane_op C ++ map scalar_op R) /\ same_meta v v' /\ same_rest v v' /\
    (if decide (length l < (addr mod reg_bytes r) / elem_size r + reg_len r) then C = []
     else length L = (addr mod reg_bytes r) / elem_size r /\ length R < reg_len r /\ length C mod reg_len r = 0).
Proof.
  intros Hr Ha Hs Hv Hop Hfits. destruct (vdata_split v l Hv) as (rest & He & Hn).
  assert (Hl : 0 < reg_len r) by (by destruct Hr as (_ & ? & _)).
  assert (Hmap : forall b : list A, length b = reg_len r -> simd_op b = map lane_op b /\ length (map lane_op b) = reg_len r)
    by (intros; rewrite map_length; auto).
  destruct (calc_data_alignment_reqs_spec r addr (valid_len v) Hr Ha) as (left & Hleft & Hlt & Hcase).
  pose proof (alignment_eq _ _ _ Hr Hleft) as Hleq.
  unfold simd_real_operation.
  destruct Hcase as [[Hsmall ->]|[Hbig ->]]; rewrite bind_Done.
  - (* all scalar *)
    rewrite He, Hn, slice_pre, bind_Done. unfold center_range. cbn [p_left p_len p_right]. rewrite Nat.eqb_refl, bind_Done.
    rewrite slice_Done by lia. rewrite bind_Done. rewrite Nat.sub_0_r, take_0, execute_partial_nil by done.
    pose proof (block_steps_spec (reg_len r) (regs_check r (addr + (0 + 0) * elem_size r) 0)
       (fun _ b => Done (simd_op b)) (fun _ => map lane_op) 0 [] Hl (blockwise_map _ _)) as Hb. cbn [length] in Hb. rewrite Hb.
    2: intros _; apply Nat.mod_0_l; lia.
    2: { intros _ i b Hi. lia. }
    unfold regs_check at 1. rewrite Nat.eqb_refl. cbn [orb map]. rewrite bind_Done.
    rewrite splice_Done by (simpl; lia). rewrite bind_Done. rewrite take_0. cbn [app length Nat.add]. rewrite drop_0.
    rewrite slice_pre, bind_Done.
    pose proof (edge_update_spec (fun _ x => Done (scalar_op x)) (fun _ => scalar_op) l [] []) as Heu.
    cbn [app length Nat.add] in Heu. rewrite app_nil_r, !Nat.add_0_r in Heu. rewrite Heu by done. rewrite bind_Done.
    cbn [imap]. rewrite imap_map, app_nil_r.
    rewrite splice_pre by (by rewrite map_length). rewrite bind_Done.
    destruct (set_elems_after v l (map scalar_op l) rest He Hn ltac:(by rewrite map_length)) as (K1 & K2 & K3).
    eexists _, l, [], []. split; [by rewrite app_nil_r|]. split; [reflexivity|]. rewrite decide_True by (rewrite <- Hleq; lia).
    cbn [map app]. rewrite app_nil_r. split_and!; try done.
  - (* registers *)
    rewrite Hn in Hbig.
    destruct (parts_of l left (reg_len r)) as (L & C & R & HLCR & HL & HR & HCm & HC & HCl); [lia | lia |].
    rewrite Hn, <- HR. rewrite He, slice_pre, bind_Done.
    unfold center_range. cbn [p_left p_len p_right].
    assert (HCpos : 0 < length C) by (destruct C; [done | simpl; lia]).
    assert (Hll : length l = length L + length C + length R) by (rewrite HLCR, !app_length; lia).
    destruct (left =? length l) eqn:E; [lia|]. rewrite usub_Done by lia. rewrite !bind_Done.
    replace (length l - length R) with (length L + length C) by lia. rewrite <- HL in *.
    assert (Hlr : l ++ rest = L ++ C ++ R ++ rest) by (by rewrite HLCR, <- !app_assoc).
    rewrite Hlr, slice_mid, bind_Done.
    rewrite (center_exec r addr (length L) co s sched C simd_op (map lane_op)); [|done|done|done| |done].
    2: apply (blockwise_map (reg_len r) lane_op).
    assert (Hal : half_aligned r addr) by (destruct Hfits as [|Hf]; [done | rewrite <- Hleq in Hf; lia]).
    rewrite (left_aligned r addr (length L) Hr Hal Hleft). rewrite Nat.eqb_refl, bind_Done.
    rewrite splice_mid by (by rewrite map_length). rewrite bind_Done.
    assert (Hll2 : length l = length (L ++ map lane_op C ++ R)) by (rewrite !app_length, map_length; lia).
    replace (L ++ map lane_op C ++ R ++ rest) with ((L ++ map lane_op C ++ R) ++ rest) by (by rewrite <- !app_assoc).
    rewrite (slice_pre' _ _ _ Hll2), bind_Done.
    pose proof (edge_update_spec (fun _ x => Done (scalar_op x)) (fun _ => scalar_op) L (map lane_op C) R) as Heu.
    rewrite map_length in Heu. rewrite Hll. rewrite Heu by done. rewrite bind_Done.
    rewrite !imap_map. rewrite splice_pre by (rewrite !app_length, !map_length; lia). rewrite bind_Done.
    destruct (set_elems_after v l (map scalar_op L ++ map lane_op C ++ map scalar_op R) rest He Hn) as (K1 & K2 & K3); [rewrite !app_length, !map_length; lia|].
    eexists _, L, C, R. split; [done|]. split; [reflexivity|]. rewrite decide_False by (rewrite <- Hleq; lia).
    split_and!; try done. rewrite HR. apply Nat.mod_upper_bound. lia.
Qed.
