(** Conversions to real numbers with a buffer don't depend on its content. *)
From Verif Require Import Proof_Base Proof_Vec Proof_Frame Proof_FrameB Proof_Simd Proof_ComplexOps.
From Verif Require Export Proof_BufferOps.
From stdpp Require Import list list_numbers tactics.
From Verif Require Import Model_Chunk Model_Reorg.

Section conv.
Context {A : Type} `{Num A} `{Flt A}.

Lemma wf_cplx (v : dvec A) : wf v -> is_complex v = true -> exists c, cplx v c.
Proof.
  intros Hw Hc. destruct (vdata_wf v Hw) as (l & Hv & Hl). destruct Hw as [_ He]. specialize (He Hc). rewrite <- Hl in He.
  apply exists_complex in He as [c ->]. by exists c.
Qed.

Lemma rel_simd_conversion (reg_op : list A -> list A) (op op' : A * A -> A) r addr s sched b1 b2 (v : dvec A) : alike b1 b2 ->
  reg_ok r -> elem_aligned r addr -> wf v -> address_ok r addr v -> halves (reg_len r) reg_op op' ->
  rel same_vb (complex_to_real_simd_b reg_op op r addr s sched b1 v) (complex_to_real_simd_b reg_op op r addr s sched b2 v).
Proof.
  intros Hb Hr Ha Hwf Hok Hop. unfold complex_to_real_simd_b. destruct (is_complex v) eqn:Hc; cbn [negb]; [|done].
  destruct (wf_cplx v Hwf Hc) as [c Hvc]. pose proof (address_ok_cplx r addr v c Hvc Hok) as Hf. destruct Hvc as [_ Hv].
  destruct (vdata_split v _ Hv) as (rest & He & Hn).
  apply (rel_bind same_vb); [|intros [v1 c1] [v2 c2] [Hv1 Hc1]; cbn in Hv1, Hc1; subst v2; done].
  unfold simd_complex_to_real_operation. cbv zeta. rewrite Hn, complex_to_array_length, Proof_SimdOps.div2_double.
  eapply rel_bind; [by apply rel_borrow|]. intros T1 T2 HT.
  destruct (alignment_halves r addr (length c) Hr Ha Hf) as
    (part & from & to & rfrom & rto & ml & mc & mr & -> & Hcr & Hrcr & Hsum & Hpl & Hpleft & Hpright & Hal & Hm & Hcut & Hccut & Htgt).
  rewrite !bind_Done. rewrite He. assert (Hsl : slice (complex_to_array c ++ rest) 0 (2 * length c) = Done (complex_to_array c))
    by (apply slice_pre'; by rewrite complex_to_array_length).
  rewrite Hsl, !bind_Done, Hcr, !bind_Done.
  destruct (cut3 c ml mc mr Hsum) as (L & C & R & -> & HL & HC & HR).
  rewrite (Hcut A L C R rest HL HC HR), !bind_Done, Hrcr, !bind_Done.
  set (res := map op L ++ map op' C ++ map op R).
  assert (Hone : forall T, length T = length (L ++ C ++ R) -> forall {Z} (k : list A -> run Z),
    (rcenter ← slice T rfrom rto;
     rcenter ← from_src_to_dest Small s sched (length (complex_to_array C)) (reg_len r) rcenter (reg_len r / 2) (fun '(f, t) _ n =>
      (fun tg => piece ← slice (complex_to_array C) f t;
                 _ ← assert_ (regs_check r (addr + (from + f) * elem_size r) (t - f)); Done tg) ::
      map (fun j tg => reg ← slice (complex_to_array C) (f + j * reg_len r) (f + (j + 1) * reg_len r);
                       splice tg (j * (reg_len r / 2)) (take (reg_len r / 2) (reg_op reg)))
          (seq 0 ((t - f) / reg_len r)));
     temp ← splice T rfrom rcenter;
     array ← Done (complex_to_array (L ++ C ++ R));
     array ← array_to_complex array;
     src ← cedge_iter part array;
     target ← slice temp 0 (p_len part / 2);
     target ← edge_update_zip (p_len part / 2) (p_left part / 2) (p_right part / 2) src (fun _ x => op x) target;
     temp ← splice temp 0 target;
     k temp) = k res).
  { intros T HTl Z k. destruct (cut3 T ml mc mr ltac:(lia)) as (TL & TC & TR & -> & HTL & HTC & HTR).
    destruct (Htgt A TL TC TR HTL HTC HTR) as [-> Hspl]. rewrite bind_Done, from_src_to_dest_small, run_steps_cons.
    pose proof (slice_pre (complex_to_array C) []) as HsC. rewrite app_nil_r in HsC. cbn [fst snd].
    rewrite HsC, bind_Done. rewrite complex_to_array_length.
    assert (Hchk : regs_check r (addr + (from + 0) * elem_size r) (2 * length C - 0) = true).
    { rewrite Nat.add_0_r, Nat.sub_0_r. destruct (decide (mc = 0)) as [E|E]; [unfold regs_check; rewrite HC, E; done|].
      apply regs_check_true; [by apply Hal | by rewrite HC]. }
    rewrite Hchk. cbn [assert_]. rewrite bind_Done, bind_Done.
    rewrite (half_center (reg_len r) reg_op op' C TC); [|by destruct Hr as (_ & ? & _) | by destruct Hr as (_ & _ & ?) | exact Hop | by rewrite HC | lia].
    rewrite bind_Done. rewrite Hspl by (rewrite map_length; lia). rewrite bind_Done, bind_Done.
    rewrite array_to_complex_Done, bind_Done. pose proof (Hccut (A * A)%type L C R [] HL HC HR) as Hce. rewrite app_nil_r in Hce.
    rewrite Hce, bind_Done. rewrite Hpl, Hpleft, Hpright. pose proof (slice_pre (TL ++ map op' C ++ TR) []) as HsT. rewrite app_nil_r in HsT.
    replace (length (L ++ C ++ R)) with (length (TL ++ map op' C ++ TR)) by (rewrite !app_length, map_length; lia).
    rewrite HsT, bind_Done. rewrite <- HTL, <- HTR.
    replace (length (TL ++ map op' C ++ TR)) with (length TL + length (map op' C) + length TR) by (rewrite !app_length; lia).
    rewrite edge_update_zip_spec by lia. rewrite bind_Done.
    assert (Hz : forall (B : Type) (t : list B) (l : list (A * A)), length t = length l -> zip_with (fun _ x => op x) t l = map op l).
    { intros B t. induction t as [|y t IH]; intros [|x l] Hl; try done. simpl. f_equal. apply IH. by injection Hl. }
    rewrite !Hz by lia. fold res. assert (Hres : length res = length TL + length TC + length TR) by (unfold res; rewrite !app_length, !map_length; lia).
    rewrite splice_Done by (rewrite !app_length, map_length; lia). rewrite bind_Done, take_0, app_nil_l.
    rewrite drop_ge, app_nil_r by (rewrite !app_length, map_length; lia). done. }
  rewrite (Hone T1 (proj1 HT)), (Hone T2 (proj2 HT)).
  apply rel_trade; [done|done|]. intros st c1 c2 Hcc. done.
Qed.
Lemma rel_magnitude r addr s sched b1 b2 (v : dvec A) : alike b1 b2 -> reg_ok r -> elem_aligned r addr -> wf v -> address_ok r addr v ->
  rel same_vb (magnitude_b r addr s sched b1 v) (magnitude_b r addr s sched b2 v) /\
  rel same_vb (magnitude_squared_b r addr s sched b1 v) (magnitude_squared_b r addr s sched b2 v).
Proof.
  intros Hb Hr Ha Hwf Hok. split; (eapply rel_simd_conversion; [done..|]); apply halves_pairs.
Qed.

Lemma run_steps_app {X} (a b : list (list X -> run (list X))) c : run_steps (a ++ b) c = (run_steps a c ≫= run_steps b).
Proof.
  unfold run_steps. rewrite foldl_app. destruct (foldl _ _ a); [done|]. cbn. induction b as [|s b IH]; [done|]. exact IH.
Qed.
Lemma rel_conversion (op : A * A -> A) s sched b1 b2 (v : dvec A) : alike b1 b2 ->
  rel same_vb (pure_complex_to_real_operation n0 s sched b1 op Small v) (pure_complex_to_real_operation n0 s sched b2 op Small v).
Proof.
  intros Hb. unfold pure_complex_to_real_operation. cbv zeta. set (h := valid_len v / 2). eapply rel_bind; [by apply rel_borrow|]. intros T1 T2 HT.
  same. rename x into array. pose proof (agree_none _ _ _ HT) as Hag. eapply rel_bind; [apply rel_slice, Hag|]. intros t1 t2 [_ Ht].
  rewrite Nat.sub_0_r in Ht. rewrite !from_src_to_dest_small. destruct (slice_len _ _ _ _ E) as [_ Hla]. rewrite Nat.sub_0_r in Hla.
  assert (Hsl : slice array 0 (length array) = Done array) by (rewrite slice_Done by lia; by rewrite Nat.sub_0_r, drop_0, firstn_all).
  apply (rel_bind (fun x y => x = y /\ length x = h)).
  - destruct Ht as (L1 & L2 & _). rewrite L1, L2. unfold run_steps. cbn [foldl]. rewrite !bind_Done, Hsl, !bind_Done.
    destruct (array_to_complex array) as [src|] eqn:Es; cycle 1.
    { assert (Hp : forall (l : list (list A -> run (list A))), foldl (fun m s => m ≫= s) (Panicked : run (list A)) l = Panicked) by (intros l; by induction l).
      cbn [mbind run_bind]. rewrite !Hp. done. }
    rewrite !bind_Done.
    assert (Hsrc : length src = h).
    { unfold array_to_complex in Es. destruct (Nat.even (length array)); [|done]. cbn in Es. injection Es as <-. rewrite pairs_of_length. by rewrite Hla. }
    assert (Hgo : forall (f : nat -> list A -> run (list A)), (forall i t, f i t = match src !! i with Some x => wr t i (op x) | None => Done t end) ->
      forall m i (l1 l2 : list A), i + m = h -> agree h (fun k => k < i) l1 l2 ->
      rel (fun x y => x = y /\ length x = h) (foldl (fun m0 s0 => m0 ≫= s0) (Done l1) (map f (seq i m))) (foldl (fun m0 s0 => m0 ≫= s0) (Done l2) (map f (seq i m)))).
    { intros f Hf m. induction m as [|m IH]; intros i l1 l2 Him Hl.
      - cbn. split; [|by destruct Hl]. apply (agree_eq _ _ _ _ Hl). intros k Hk. lia.
      - cbn [seq map foldl]. rewrite !bind_Done, !Hf.
        destruct (lookup_lt_is_Some_2 src i ltac:(lia)) as [x Ex]. rewrite Ex.
        pose proof (rel_wr h _ l1 l2 i (op x) Hl) as Hw. destruct (wr l1 i (op x)) as [m1|] eqn:E1, (wr l2 i (op x)) as [m2|] eqn:E2; cbn [rel] in Hw; try done.
        + apply IH; [lia|]. destruct Hw as [_ Hw]. revert Hw. apply agree_mono. intros k _ Hk. cbv beta. lia.
        + unfold wr in E1. destruct Hl as (Hl1 & _ & _). rewrite Hl1 in E1. destruct (Nat.ltb_spec i h); [done|lia]. }
    apply Hgo; [|lia|split_and!; [done|done|intros; lia]]. intros i t. rewrite bind_Done, Es. done.
  - intros x ? [<- Hx]. eapply rel_bind; [apply (rel_splice h h _ (fun _ => True) T1 T2 0 x x Hag); by split_and!|].
    intros y1 y2 [_ Hy]. apply rel_trade; [done| |].
    + apply (agree_eq _ _ _ _ Hy). intros i Hi. cbn [Nat.leb andb]. rewrite (proj2 (Nat.ltb_lt _ _)) by lia. done.
    + intros st c1 c2 Hc. done.
Qed.
Lemma rel_to_real_b (op : A * A -> A) s sched b1 b2 (v : dvec A) : alike b1 b2 ->
  rel same_vb (complex_to_real_b op s sched b1 v) (complex_to_real_b op s sched b2 v).
Proof.
  intros Hb. unfold complex_to_real_b. destruct (negb _); [done|]. eapply rel_bind; [by apply rel_conversion|].
  intros [v1 c1] [v2 c2] [Hv Hc]. cbn in Hv, Hc. subst v2. done.
Qed.
Lemma rel_to_complex_b b1 b2 (v : dvec A) : alike b1 b2 -> rel same_vb (to_complex_b b1 v) (to_complex_b b2 v).
Proof.
  intros Hb. unfold to_complex_b. destruct (is_complex v); [done|]. eapply rel_bind; [by apply rel_zero_interleave|].
  intros [v1 c1] [v2 c2] [Hv Hc]. cbn in Hv, Hc. subst v2. done.
Qed.
End conv.
