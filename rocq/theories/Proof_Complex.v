(** Conversions between complex and real vectors. *)
From Verif Require Export Spec_Complex Proof_Dot Proof_Map Proof_PadB Proof_ReorgMore.

(** ** In place *)
Lemma inplace_half {A} (op : A * A -> A) (c : list (A * A)) (rest : list A) :
  loop (length c) 0 (fun i l => x ← rd l (2 * i); y ← rd l (2 * i + 1); wr l i (op (x, y))) (complex_to_array c ++ rest) =
  Done (map op c ++ drop (length c) (complex_to_array c ++ rest)).
Proof.
  set (all := complex_to_array c ++ rest).
  assert (Hall : length all = 2 * length c + length rest) by (unfold all; rewrite app_length, complex_to_array_length; lia).
  destruct (loop_inv (fun i l => l = map op (take i c) ++ drop i all) (length c) 0
    (fun i l => x ← rd l (2 * i); y ← rd l (2 * i + 1); wr l i (op (x, y))) all) as (l & -> & Hl).
  - done.
  - intros j l [_ Hj] ->. simpl in Hj. destruct (lookup_lt_is_Some_2 c j Hj) as [[x y] Hxy].
    destruct (complex_to_array_lookup c j) as [H1 H2]. rewrite Hxy in H1, H2. simpl in H1, H2.
    assert (Hlt : length (map op (take j c)) = j) by (rewrite map_length, take_length; lia).
    assert (Hrd : forall k z, j <= k -> complex_to_array c !! k = Some z -> rd (map op (take j c) ++ drop j all) k = Done z).
    { intros k z Hk Hz. apply rd_Done. rewrite lookup_app_r by lia. rewrite Hlt, lookup_drop.
      replace (j + (k - j)) with k by lia. unfold all. rewrite lookup_app_l; [done|]. by apply lookup_lt_Some in Hz. }
    rewrite (Hrd (2 * j) x) by (done || lia). rewrite bind_Done. rewrite (Hrd (2 * j + 1) y) by (done || lia). rewrite bind_Done.
    rewrite wr_Done by (rewrite app_length, drop_length; lia). eexists. split; [done|].
    rewrite insert_app_r_alt by lia. rewrite Hlt, Nat.sub_diag.
    destruct (drop j all) as [|z d] eqn:Ed; [apply (f_equal length) in Ed; rewrite drop_length in Ed; simpl in Ed; lia|].
    simpl. replace (j + 1) with (S j) by lia. rewrite (take_S_r c j (x, y)) by done. rewrite map_app. simpl. rewrite <- app_assoc. simpl.
    do 2 f_equal. replace (drop (S j) all) with (drop 1 (drop j all)) by (rewrite drop_drop; f_equal; lia). by rewrite Ed.
  - simpl in Hl. rewrite Hl, firstn_all. done.
Qed.

(** ** SIMD: how points are cut *)
Lemma alignment_halves r addr m : reg_ok r -> elem_aligned r addr -> csimd_fits r addr (2 * m) ->
  exists part from to rfrom rto ml mc mr,
    calc_data_alignment_reqs r addr (2 * m) = Done part /\ center_range part = Done (from, to) /\ rcenter_range part = Done (rfrom, rto) /\
    ml + mc + mr = m /\ p_len part / 2 = m /\ p_left part / 2 = ml /\ p_right part / 2 = mr /\
    (mc <> 0 -> (addr + from * elem_size r) mod reg_bytes r = 0) /\ (2 * mc) mod reg_len r = 0 /\
    (forall B (L C R : list (B * B)) rest, length L = ml -> length C = mc -> length R = mr ->
       slice (complex_to_array (L ++ C ++ R) ++ rest) from to = Done (complex_to_array C)) /\
    (forall B (L C R rest : list B), length L = ml -> length C = mc -> length R = mr -> cedge_iter part (L ++ C ++ R ++ rest) = Done (L ++ R)) /\
    (forall B (L C R : list B), length L = ml -> length C = mc -> length R = mr ->
       slice (L ++ C ++ R) rfrom rto = Done C /\ forall C', length C' = length C -> splice (L ++ C ++ R) rfrom C' = Done (L ++ C' ++ R)).
Proof.
  intros Hr Ha Hf. assert (Hl : 0 < reg_len r) by (by destruct Hr as (_ & ? & _)).
  assert (Hev : Nat.even (reg_len r) = true) by (by destruct Hr as (_ & _ & ?)).
  destruct (calc_data_alignment_reqs_spec r addr (2 * m) Hr Ha) as (left & Hleft & Hlt & Hcase).
  pose proof (alignment_eq _ _ _ Hr Hleft) as Hleq.
  destruct Hcase as [[Hsmall ->]|[Hbig ->]].
  - exists (SimdPartition (2 * m) 0 (2 * m)), 0, 0, 0, 0, m, 0, 0. unfold center_range, rcenter_range. cbn [p_left p_len p_right]. rewrite Nat.eqb_refl, div2_double.
    split_and!; try done; try lia; try (by apply Nat.mod_0_l; lia).
    + intros B L C R rest HL HC HR. destruct C; [|done]. by rewrite slice_Done by lia.
    + intros B L C R rest HL HC HR. destruct C; [|done]. destruct R; [|done]. unfold cedge_iter. cbn [p_left p_len p_right]. rewrite div2_double.
      change (0 / 2) with 0. rewrite !app_nil_l, app_nil_r. rewrite slice_pre' by done. rewrite bind_Done, usub_Done by lia.
      rewrite bind_Done, Nat.sub_0_r, slice_Done by (rewrite ?app_length; lia). rewrite bind_Done, Nat.sub_diag, take_0, app_nil_r. done.
    + intros B L C R HL HC HR. destruct C; [|done]. split; [by rewrite slice_Done by lia|].
      intros [|] HC'; [|done]. rewrite splice_Done by (simpl; lia). by rewrite take_0, drop_0.
  - assert (Hal : half_aligned r addr /\ point_aligned r addr) by (destruct Hf as [|Hf]; [done | rewrite <- Hleq in Hf; lia]).
    destruct Hal as [Hal Hpt]. assert (Hle : Nat.even left = true) by (by apply (left_even r addr)).
    destruct (parts_of (replicate (2 * m) tt) left (reg_len r)) as (L0 & C0 & R0 & E & HL0 & HR0 & HC0 & HCne & _);
      [done | by rewrite replicate_length |]. rewrite replicate_length in HR0.
    set (right := (2 * m - left) mod reg_len r) in *.
    assert (Her : Nat.even right = true) by (apply even_mod_sub; try done; [apply even_double | lia]).
    assert (Hsum : left + length C0 + right = 2 * m).
    { apply (f_equal length) in E. rewrite replicate_length, !app_length in E. lia. }
    assert (HCpos : 0 < length C0) by (destruct C0; [done | simpl; lia]).
    clear E. clearbody right. apply Nat.even_spec in Hle as [ml ->], Her as [mr ->].
    assert (exists mc, length C0 = 2 * mc) as [mc Hmc] by (exists (m - ml - mr); lia).
    exists (SimdPartition (2 * ml) (2 * mr) (2 * m)), (2 * ml), (2 * m - 2 * mr), ml, (m - mr), ml, mc, mr.
    unfold center_range, rcenter_range. cbn [p_left p_len p_right]. destruct (2 * ml =? 2 * m) eqn:En; [lia|].
    rewrite !div2_double. rewrite !usub_Done by lia. rewrite !bind_Done.
    split_and!; try done; try lia.
    + intros _. by apply left_aligned.
    + by rewrite <- Hmc.
    + intros B L C R rest HL HC HR. rewrite !complex_to_array_app, <- !app_assoc. rewrite <- HL, <- complex_to_array_length.
      replace (2 * m - 2 * mr) with (length (complex_to_array L) + length (complex_to_array C)) by (rewrite !complex_to_array_length; lia).
      apply slice_mid.
    + intros B L C R rest HL HC HR. unfold cedge_iter. cbn [p_left p_len p_right]. rewrite !div2_double.
      rewrite slice_pre' by done. rewrite bind_Done, usub_Done by lia. rewrite bind_Done.
      replace (m - mr) with (length (L ++ C)) by (rewrite app_length; lia).
      replace (L ++ C ++ R ++ rest) with ((L ++ C) ++ R ++ rest) by (by rewrite !app_assoc).
      replace m with (length (L ++ C) + length R) by (rewrite app_length; lia). by rewrite slice_mid, bind_Done.
    + intros B L C R HL HC HR. split.
      * rewrite <- HL. replace (m - mr) with (length L + length C) by lia. apply slice_mid.
      * intros C' HC'. rewrite <- HL. by apply splice_mid.
Qed.

(** The registers of the center, one after the other *)
Lemma half_blocks {A} w (reg_op : list A -> list A) (op : A * A -> A) (all : list A) :
  0 < w -> Nat.even w = true -> (forall b, length b = w -> take (w / 2) (reg_op b) = map op (pairs_of b)) ->
  forall k pre cs t, length cs = k * w -> length t = k * (w / 2) -> (exists p, all = p ++ cs /\ length p = length pre * 2) -> (exists i, length pre = i * (w / 2)) ->
  run_steps (map (fun j tg => reg ← slice all (0 + j * w) (0 + (j + 1) * w); splice tg (j * (w / 2)) (take (w / 2) (reg_op reg)))
    (seq (length pre / (w / 2)) k)) (pre ++ t) = Done (pre ++ map op (pairs_of cs)).
Proof.
  intros Hw Hev Hop. apply Nat.even_spec in Hev as [h Hh]. assert (Hwh : w / 2 = h) by (rewrite Hh; apply div2_double). rewrite Hwh in *.
  induction k as [|k IH]; intros pre cs t Hcs Ht (p & Hp & Hpl) [i Hi].
  { destruct cs; [|simpl in Hcs; lia]. destruct t; [done | simpl in Ht; lia]. }
  cbn [seq map]. rewrite run_steps_cons. rewrite Hi, Nat.div_mul by lia.
  destruct (cut3 cs w (k * w) 0) as (b & cs' & e & -> & Hb & Hcs' & He); [lia|]. destruct e; [|done]. rewrite app_nil_r in *.
  destruct (cut3 t h (k * h) 0) as (tb & t' & e & -> & Htb & Ht' & He'); [lia|]. destruct e; [|done]. rewrite app_nil_r in *.
  assert (Hpi : length p = i * w) by (rewrite Hpl, Hi, Hh; lia).
  rewrite !Nat.add_0_l. rewrite Hp. replace (i * w) with (length p) by lia. replace ((i + 1) * w) with (length p + length b) by lia.
  rewrite slice_mid, bind_Done. rewrite Hop by done. rewrite <- Hi. rewrite splice_mid by (rewrite map_length, pairs_of_length, Hb, Hwh; lia).
  rewrite bind_Done. rewrite pairs_of_app_even by (rewrite Hb, Hh; apply even_double). rewrite map_app.
  set (m := map op (pairs_of b)). assert (Hm : length m = h) by (unfold m; rewrite map_length, pairs_of_length, Hb; done).
  replace (pre ++ m ++ t') with ((pre ++ m) ++ t') by (by rewrite app_assoc). rewrite <- Hp.
  replace (S i) with (length (pre ++ m) / h) by (rewrite app_length, Hm, Hi; replace (i * h + h) with ((i + 1) * h) by lia; rewrite Nat.div_mul; lia).
  rewrite (IH (pre ++ m) cs' t'); [by rewrite <- app_assoc | lia | lia | |].
  - exists (p ++ b). split; [by rewrite Hp, <- app_assoc|]. rewrite !app_length, Hm. lia.
  - exists (i + 1). rewrite app_length, Hm. lia.
Qed.
Lemma half_center {A} w (reg_op : list A -> list A) (op : A * A -> A) (c : list (A * A)) (t : list A) :
  0 < w -> Nat.even w = true -> (forall b, length b = w -> take (w / 2) (reg_op b) = map op (pairs_of b)) ->
  (2 * length c) mod w = 0 -> length t = length c ->
  run_steps (map (fun j tg => reg ← slice (complex_to_array c) (0 + j * w) (0 + (j + 1) * w); splice tg (j * (w / 2)) (take (w / 2) (reg_op reg)))
    (seq 0 ((2 * length c - 0) / w))) t = Done (map op c).
Proof.
  intros Hw Hev Hop Hm Ht. pose proof Hev as Hev'. apply Nat.even_spec in Hev as [h Hh]. assert (Hwh : w / 2 = h) by (rewrite Hh; apply div2_double).
  rewrite Nat.sub_0_r. set (k := 2 * length c / w).
  assert (Hk : 2 * length c = k * w) by (pose proof (Nat.div_mod (2 * length c) w ltac:(lia)); unfold k; lia). clearbody k.
  pose proof (half_blocks w reg_op op (complex_to_array c) Hw Hev' Hop k [] (complex_to_array c) t) as HB.
  cbn [length app] in HB. rewrite Nat.div_0_l in HB by lia. rewrite pairs_of_complex_to_array in HB. apply HB.
  - by rewrite complex_to_array_length.
  - rewrite Hwh, Ht. nia.
  - by exists [].
  - by exists 0.
Qed.

Section conv.
Context {A : Type} `{Num A} `{Flt A}.

Lemma converted_real (v w : dvec A) : typed v -> delta w = delta v -> domain w = domain v -> number_space w = number_space v ->
  converted v (rededicate_from_force (real_result v) (vec_to_real w)) /\ is_complex (rededicate_from_force (real_result v) (vec_to_real w)) = false.
Proof.
  intros Ht Hd Hm Hn. unfold converted, real_result, vec_to_real, typed, vdomain in *.
  destruct (number_space v) eqn:En, (domain v) eqn:Ed; try done; simpl; unfold vdomain, is_complex; simpl; rewrite ?Hn, ?Hm; simpl;
    split_and!; try done; split; intros [b Hb]; simpl in *; try discriminate; eauto.
Qed.
Lemma converted_cplx (v w : dvec A) : typed v -> delta w = delta v -> domain w = domain v -> number_space w = number_space v ->
  converted v (rededicate_from_force (complex_result v) (vec_to_complex w)) /\ is_complex (rededicate_from_force (complex_result v) (vec_to_complex w)) = true.
Proof.
  intros Ht Hd Hm Hn. unfold converted, complex_result, vec_to_complex, typed, vdomain in *.
  destruct (number_space v) eqn:En, (domain v) eqn:Ed; try done; simpl; unfold vdomain, is_complex; simpl; rewrite ?Hn, ?Hm; simpl;
    split_and!; try done; split; intros [b Hb]; simpl in *; try discriminate; eauto.
Qed.
Lemma converted_runtime (v w : dvec A) : typed v -> same_meta v w ->
  converted v (rededicate_with_runtime_data (complex_result v) w true (vdomain w)) /\
  is_complex (rededicate_with_runtime_data (complex_result v) w true (vdomain w)) = true.
Proof.
  intros Ht (Hd & Hm & Hn). unfold converted, complex_result, typed, vdomain in *.
  destruct (number_space v) eqn:En, (domain v) eqn:Ed; try done; simpl; unfold vdomain, is_complex; simpl; rewrite ?Hm; simpl;
    split_and!; try done; split; intros [b Hb]; simpl in *; try discriminate; eauto.
Qed.
(** The data is not touched by rededication *)
Lemma rededicate_data t (w : dvec A) : data (rededicate_from_force t w) = data w /\ valid_len (rededicate_from_force t w) = valid_len w.
Proof. by destruct t. Qed.
Lemma rededicate_runtime_data t (w : dvec A) c d :
  data (rededicate_with_runtime_data t w c d) = data w /\ valid_len (rededicate_with_runtime_data t w c d) = valid_len w.
Proof. by destruct t. Qed.
Lemma vdata_same (v w : dvec A) : data w = data v -> valid_len w = valid_len v -> vdata w = vdata v.
Proof. intros Hd Hl. unfold vdata, elems. by rewrite Hd, Hl. Qed.

Lemma vdata_to_real t (w : dvec A) : vdata (rededicate_from_force t (vec_to_real w)) = vdata w.
Proof. by destruct t. Qed.
Lemma vdata_to_complex t (w : dvec A) : vdata (rededicate_from_force t (vec_to_complex w)) = vdata w.
Proof. by destruct t. Qed.
Lemma vdata_runtime t (w : dvec A) c d : vdata (rededicate_with_runtime_data t w c d) = vdata w.
Proof. by destruct t. Qed.

Theorem complex_to_real_spec (op : A * A -> A) (v : dvec A) c : cplx v c -> typed v ->
  exists v', complex_to_real op v = Done v' /\ reals v' (map op c) /\ converted v v' /\ alloc_len v' = alloc_len v.
Proof.
  intros [Hc Hv] Ht. destruct (vdata_split v _ Hv) as (rest & He & Hn). unfold complex_to_real. rewrite Hc. simpl negb. cbv iota.
  unfold pure_complex_to_real_operation_inplace. rewrite Hn, complex_to_array_length, div2_double, He, inplace_half, !bind_Done.
  set (l := map op c ++ _). set (w := set_valid_len _ _). destruct (converted_real v w Ht) as [H1 H2]; try done.
  eexists. split; [reflexivity|]. split_and!; [split; [done|] | done |].
  - rewrite vdata_to_real. apply (vdata_intro w (map op c) (drop (length c) (complex_to_array c ++ rest))); [done|].
    simpl. by rewrite map_length.
  - unfold alloc_len, s_len. rewrite (proj1 (rededicate_data _ _)). simpl. unfold l. fold (elems v). rewrite He.
    rewrite !app_length, drop_length, map_length, app_length, complex_to_array_length. lia.
Qed.

Theorem complex_to_real_on_real (op : A * A -> A) (v : dvec A) : is_complex v = false -> typed v ->
  exists v', complex_to_real op v = Done v' /\ poisoned v' /\ is_complex v' = false.
Proof.
  intros Hc Ht. unfold complex_to_real. rewrite Hc. simpl negb. cbv iota. eexists. split; [reflexivity|]. unfold not_complex, poisoned.
  destruct (converted_real v v Ht) as [H1 H2]; try done.
  unfold real_result in *. unfold typed in Ht. destruct (number_space v) eqn:En, (domain v); done.
Qed.

(** ** Filling a target *)
Lemma fill_steps_from (f : nat -> step A) (L : list A) : forall pre t, length t = length L ->
  (forall j x t', L !! j = Some x -> f (length pre + j) t' = wr t' (length pre + j) x) ->
  run_steps (map f (seq (length pre) (length L))) (pre ++ t) = Done (pre ++ L).
Proof.
  induction L as [|x L IH]; intros pre t Ht Hf; [destruct t; [done | simpl in Ht; lia]|].
  destruct t as [|y t]; [simpl in Ht; lia|]. cbn [length seq map]. rewrite run_steps_cons.
  pose proof (Hf 0 x (pre ++ y :: t) eq_refl) as H1. rewrite Nat.add_0_r in H1. rewrite H1.
  rewrite wr_Done by (rewrite app_length; simpl; lia). rewrite bind_Done. rewrite insert_app_r_alt, Nat.sub_diag by lia. simpl insert.
  replace (pre ++ x :: t) with ((pre ++ [x]) ++ t) by (by rewrite <- app_assoc).
  replace (S (length pre)) with (length (pre ++ [x])) by (rewrite app_length; simpl; lia).
  rewrite IH.
  - by rewrite <- app_assoc.
  - simpl in Ht. lia.
  - intros j z t' Hz. rewrite app_length. simpl length. pose proof (Hf (S j) z t' Hz) as H2.
    by replace (length pre + 1 + j) with (length pre + S j) by lia.
Qed.
Lemma fill_steps (f : nat -> step A) (L t : list A) : length t = length L ->
  (forall j x t', L !! j = Some x -> f j t' = wr t' j x) -> run_steps (map f (seq 0 (length L))) t = Done L.
Proof. intros Ht Hf. apply (fill_steps_from f L [] t Ht). exact Hf. Qed.

Lemma vdata_splice (v : dvec A) l l' : vdata v = Done l -> length l' = length l ->
  exists v', (m ← splice (elems v) 0 l'; Done (set_elems v m)) = Done v' /\ vdata v' = Done l' /\ same_meta v v' /\ same_rest v v' /\ alloc_len v' = alloc_len v.
Proof.
  intros Hv Hl. destruct (vdata_split v l Hv) as (rest & He & Hn). rewrite He, splice_pre by done. rewrite bind_Done.
  eexists. split; [reflexivity|]. destruct (set_elems_after v l l' rest He Hn Hl) as (H1 & H2 & H3). split_and!; try done.
  unfold alloc_len, s_len. simpl. fold (elems v). rewrite He, !app_length. lia.
Qed.

(** ** Buffered, without SIMD *)
Theorem complex_to_real_b_spec (op : A * A -> A) s sched b (v : dvec A) c : cplx v c -> typed v -> lends b v (length c) ->
  exists v' b', complex_to_real_b op s sched b v = Done (v', b') /\ reals v' (map op c) /\ converted v v'.
Proof.
  intros [Hc Hv] Ht Hb. destruct (vdata_split v _ Hv) as (rest & He & Hn). unfold complex_to_real_b. rewrite Hc. simpl negb. cbv iota.
  unfold pure_complex_to_real_operation. rewrite Hn, complex_to_array_length, div2_double.
  destruct (borrow_lends n0 b v (length c) Hb) as (T & -> & HT). rewrite bind_Done.
  rewrite He. rewrite slice_pre' by (by rewrite complex_to_array_length). rewrite bind_Done. rewrite slice_Done by lia. rewrite bind_Done.
  rewrite drop_0, Nat.sub_0_r. rewrite take_ge by lia. rewrite from_src_to_dest_small.
  rewrite run_steps_cons. cbn [fst snd].
  assert (Hsl : forall Q (k : list (A * A) -> run Q), (src ← slice (complex_to_array c) 0 (length (complex_to_array c)); src0 ← array_to_complex src; k src0) = k c).
  { intros Q k. pose proof (slice_pre (complex_to_array c) []) as Hs. rewrite app_nil_r in Hs. by rewrite Hs, bind_Done, array_to_complex_Done, bind_Done. }
  rewrite (Hsl _ (fun _ => Done T)), bind_Done.
  replace (length T) with (length (map op c)) by (rewrite map_length; lia). rewrite fill_steps.
  2: rewrite map_length; lia.
  2: { intros j x t' Hx. rewrite list_lookup_fmap in Hx. destruct (c !! j) as [p|] eqn:Hp; [|done]. injection Hx as <-.
       rewrite (Hsl _ (fun src => match src !! j with Some x => wr t' j (op x) | None => Done t' end)). by rewrite Hp. }
  rewrite bind_Done. rewrite splice_Done by (rewrite map_length; lia). rewrite bind_Done. rewrite take_0, app_nil_l, Nat.add_0_l, map_length.
  rewrite drop_ge, app_nil_r by lia.
  destruct (trade_vdata b v (map op c) (length c) Hb (map_length _ _)) as (w & b' & Hw & Hwd & Hwm).
  destruct (trade b (map op c) (data v)) as [st b2] eqn:Et. injection Hw as Hw1 Hw2. rewrite bind_Done. cbv beta iota.
  change (set_data (set_valid_len v (length c)) st) with (set_valid_len (set_data v st) (length c)). rewrite Hw1.
  destruct Hwm as (Hm1 & Hm2 & Hm3). destruct (converted_real v w Ht Hm1 Hm2 Hm3) as [H1 H2].
  eexists _, _. split; [reflexivity|]. split; [split; [done|] | done]. by rewrite vdata_to_real.
Qed.
End conv.
