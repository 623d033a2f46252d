From Verif Require Export Proof_Simd.

(** The SIMD part of an operation is not started at all ([n] elements are not enough), or its data is aligned. *)
Definition simd_fits (r : reg_type) (addr n : nat) : Prop :=
  half_aligned r addr \/ n < (addr mod reg_bytes r) / elem_size r + reg_len r.

Lemma imap_map {A B} (g : A -> B) (l : list A) : imap (fun _ => g) l = map g l.
Proof. induction l as [|x l IH]; [done|]. cbn [imap map]. f_equal. apply IH. Qed.

Lemma blockwise_map {A} w (g : A -> A) : blockwise w (fun _ => map g).
Proof. split; [done|]. intros _ b l _. apply map_app. Qed.

Lemma blockwise_pairs {A} w (g : A * A -> A * A) : Nat.even w = true -> blockwise w (fun _ => on_pairs g).
Proof.
  intros Hw. split; [done|]. intros _ b l Hb. unfold on_pairs.
  rewrite pairs_of_app_even by (by rewrite Hb). by rewrite map_app, complex_to_array_app.
Qed.

Lemma on_pairs_length {A} (g : A * A -> A * A) l : Nat.even (length l) = true -> length (on_pairs g l) = length l.
Proof.
  intros H. unfold on_pairs. rewrite complex_to_array_length, map_length, pairs_of_length.
  apply Nat.even_spec in H as [k ->]. rewrite (Nat.mul_comm 2 k), Nat.div_mul by lia. lia.
Qed.

Lemma execute_partial_nil {A} co s sched w (f : nat -> nat -> list (step A)) :
  no_threads_for_nothing co s -> execute_partial co s sched [] w f = run_steps (f 0 0) [].
Proof.
  intros H. unfold execute_partial. cbv zeta. unfold no_threads_for_nothing in H. simpl length.
  destruct (1 <? determine_number_of_chunks 0 co s) eqn:E; [lia|done].
Qed.

Lemma regs_check_true r addr n : addr mod reg_bytes r = 0 -> n mod reg_len r = 0 -> regs_check r addr n = true.
Proof. intros H1 H2. unfold regs_check. rewrite H1, H2. by rewrite orb_true_r. Qed.

(** The center of a SIMD operation, which may be misaligned *)
Lemma center_exec {A} r addr from co s sched (C : list A) (simd_op : list A -> list A) (f : list A -> list A) :
  reg_ok r -> C <> [] -> length C mod reg_len r = 0 ->
  blockwise (reg_len r) (fun _ => f) -> (forall b, length b = reg_len r -> simd_op b = f b /\ length (f b) = reg_len r) ->
  execute_partial co s sched C (reg_len r)
    (fun off n => block_steps (reg_len r) (regs_check r (addr + (from + off) * elem_size r) n) (fun _ b => Done (simd_op b)) n) =
  if (addr + from * elem_size r) mod reg_bytes r =? 0 then Done (f C) else Panicked.
Proof.
  intros Hr HC Hm Hbw Hop. assert (Hl : 0 < reg_len r) by (by destruct Hr as (_ & ? & _)).
  rewrite (execute_partial_any co s sched C (reg_len r) _
            (fun off l => if regs_check r (addr + (from + off) * elem_size r) (length l) then Done (f l) else Panicked)).
  - rewrite Nat.add_0_r. unfold regs_check. rewrite Hm.
    destruct C; [done|]. simpl. by rewrite andb_true_r.
  - done.
  - done.
  - apply (splittable_check _ (fun off n => regs_check r (addr + (from + off) * elem_size r) n) (fun _ => f)); [done | |].
    + intros off b l Hb. apply (blockwise_app _ _ off b l Hl Hbw Hb).
    + intros off n1 n2 H1.
      replace (addr + (from + (off + n1)) * elem_size r) with (addr + from * elem_size r + (off + n1) * elem_size r) by lia.
      replace (addr + (from + off) * elem_size r) with (addr + from * elem_size r + off * elem_size r) by lia.
      by apply regs_check_split.
  - intros off c. apply (block_steps_spec _ _ _ (fun _ => f) 0); [done | done | |].
    + unfold regs_check. intros H. destruct (length c) eqn:E; [apply Nat.mod_0_l; lia|]. simpl in H. lia.
    + intros _ i b _ Hb. destruct (Hop b Hb) as [-> ?]. done.
Qed.

Lemma parts_of {A} (l : list A) left w : 0 < w -> left + w <= length l ->
  let right := (length l - left) mod w in
  exists L C R, l = L ++ C ++ R /\ length L = left /\ length R = right /\ length C mod w = 0 /\ C <> [] /\ length C = length l - right - left.
Proof.
  intros Hw Hle right. pose proof (Nat.div_mod (length l - left) w ltac:(lia)) as Hd.
  pose proof (Nat.mod_upper_bound (length l - left) w ltac:(lia)) as Hb. fold right in Hd, Hb.
  exists (take left l), (take (length l - right - left) (drop left l)), (drop (length l - right) l).
  assert (Hr : right <= length l - left - w).
  { destruct (decide (length l - left - w < right)) as [Hlt|]; [|lia]. exfalso.
    assert ((length l - left) / w = 0 \/ 1 <= (length l - left) / w) as [E|E] by lia; [rewrite E in Hd; lia|].
    set (q := (length l - left) / w) in *. clearbody right q. nia. }
  split_and!.
  - rewrite <- (take_drop left l) at 1. f_equal. rewrite <- (take_drop (length l - right - left) (drop left l)) at 1. f_equal.
    rewrite drop_drop. f_equal. lia.
  - rewrite take_length. lia.
  - rewrite drop_length. lia.
  - rewrite take_length, drop_length. rewrite Nat.min_l by lia.
    replace (length l - right - left) with ((length l - left) / w * w).
    + apply Nat.mod_mul. lia.
    + set (q := (length l - left) / w) in *. clearbody right q. nia.
  - intros E. apply (f_equal length) in E. rewrite take_length, drop_length in E. simpl in E. lia.
  - rewrite take_length, drop_length. lia.
Qed.

Lemma slice_mid {A} (L C R : list A) : slice (L ++ C ++ R) (length L) (length L + length C) = Done C.
Proof.
  rewrite slice_Done by (rewrite ?app_length; lia). rewrite drop_app_ge, Nat.sub_diag by lia. rewrite drop_0.
  replace (length L + length C - length L) with (length C) by lia. by rewrite take_app.
Qed.
Lemma slice_pre {A} (L R : list A) : slice (L ++ R) 0 (length L) = Done L.
Proof. apply (slice_mid [] L R). Qed.
Lemma slice_pre' {A} (L R : list A) n : n = length L -> slice (L ++ R) 0 n = Done L.
Proof. intros ->. apply slice_pre. Qed.
Lemma splice_mid {A} (L C C' R : list A) : length C' = length C -> splice (L ++ C ++ R) (length L) C' = Done (L ++ C' ++ R).
Proof.
  intros H. rewrite splice_Done by (rewrite !app_length; lia). rewrite take_app. rewrite H.
  rewrite drop_app_ge by lia. replace (length L + length C - length L) with (length C) by lia. by rewrite drop_app.
Qed.
Lemma splice_pre {A} (L L' R : list A) : length L' = length L -> splice (L ++ R) 0 L' = Done (L' ++ R).
Proof. apply (splice_mid [] L L' R). Qed.

(** What an in place operation leaves behind *)
Lemma set_elems_after {A} (v : dvec A) l l' r : elems v = l ++ r -> valid_len v = length l -> length l' = length l ->
  let v' := set_elems v (l' ++ r) in vdata v' = Done l' /\ same_meta v v' /\ same_rest v v'.
Proof.
  intros H1 H2 H3 v'. split_and!.
  - apply (vdata_intro v' l' r); [done | simpl; lia].
  - done.
  - unfold same_rest. split_and!; [done | done | done |]. rewrite H1, H2.
    rewrite drop_app. rewrite <- H3. apply drop_app.
Qed.

Lemma alignment_eq r addr left : reg_ok r -> left * elem_size r = addr mod reg_bytes r -> left = (addr mod reg_bytes r) / elem_size r.
Proof. intros (H & _) <-. rewrite Nat.div_mul; lia. Qed.

Lemma not_half_aligned r addr left : reg_ok r -> left * elem_size r = addr mod reg_bytes r -> ~ half_aligned r addr ->
  ((addr + left * elem_size r) mod reg_bytes r =? 0) = false.
Proof.
  intros (He & Hl & Hev) Hlft Hn. apply Nat.eqb_neq. rewrite Hlft. assert (Hb : reg_bytes r <> 0) by (unfold reg_bytes; nia).
  rewrite Nat.add_mod_idemp_r by done. unfold half_aligned in Hn. by replace (addr + addr) with (2 * addr) by lia.
Qed.

Theorem simd_real_operation_spec {A} r addr s sched (simd_op : list A -> list A) scalar_op co (v : dvec A) l :
  reg_ok r -> elem_aligned r addr -> no_threads_for_nothing co s -> vdata v = Done l ->
  (forall b, length b = reg_len r -> simd_op b = map scalar_op b) ->
  (simd_fits r addr (length l) ->
     exists v', simd_real_operation r addr s sched simd_op scalar_op co v = Done v' /\
       vdata v' = Done (map scalar_op l) /\ same_meta v v' /\ same_rest v v') /\
  (~ simd_fits r addr (length l) -> simd_real_operation r addr s sched simd_op scalar_op co v = Panicked).
Proof.
  intros Hr Ha Hs Hv Hop. destruct (vdata_split v l Hv) as (rest & He & Hn).
  assert (Hl : 0 < reg_len r) by (by destruct Hr as (_ & ? & _)).
  assert (Hmap : forall b : list A, length b = reg_len r -> simd_op b = map scalar_op b /\ length (map scalar_op b) = reg_len r)
    by (intros; rewrite map_length; auto).
  destruct (calc_data_alignment_reqs_spec r addr (valid_len v) Hr Ha) as (left & Hleft & Hlt & Hcase).
  pose proof (alignment_eq _ _ _ Hr Hleft) as Hleq.
  unfold simd_real_operation.
  destruct Hcase as [[Hsmall ->]|[Hbig ->]]; rewrite bind_Done.
  - (* all scalar *)
    split; [intros _ | intros Hnf; exfalso; apply Hnf; right; rewrite <- Hleq; lia].
    rewrite He, Hn, slice_pre, bind_Done. unfold center_range. cbn [p_left p_len p_right]. rewrite Nat.eqb_refl, bind_Done.
    rewrite slice_Done by lia. rewrite bind_Done. rewrite Nat.sub_0_r, take_0, execute_partial_nil by done.
    pose proof (block_steps_spec (reg_len r) (regs_check r (addr + (0 + 0) * elem_size r) 0)
       (fun _ b => Done (simd_op b)) (fun _ => map scalar_op) 0 [] Hl (blockwise_map _ _)) as Hb. cbn [length] in Hb. rewrite Hb.
    2: intros _; apply Nat.mod_0_l; lia.
    2: { intros _ i b Hi. lia. }
    unfold regs_check at 1. rewrite Nat.eqb_refl. cbn [orb map]. rewrite bind_Done.
    rewrite splice_Done by (simpl; lia). rewrite bind_Done. rewrite take_0. cbn [app length Nat.add]. rewrite drop_0.
    rewrite slice_pre, bind_Done.
    pose proof (edge_update_spec (fun _ x => Done (scalar_op x)) (fun _ => scalar_op) l [] []) as Heu.
    cbn [app length Nat.add] in Heu. rewrite app_nil_r, !Nat.add_0_r in Heu. rewrite Heu by done. rewrite bind_Done.
    cbn [imap]. rewrite imap_map, app_nil_r.
    rewrite splice_pre by (by rewrite map_length). rewrite bind_Done.
    eexists. split; [reflexivity|]. apply (set_elems_after v l); try done. by rewrite map_length.
  - (* registers *)
    rewrite Hn in Hbig.
    destruct (parts_of l left (reg_len r)) as (L & C & R & HLCR & HL & HR & HCm & HC & HCl); [lia | lia |].
    rewrite Hn, <- HR. rewrite He, slice_pre, bind_Done.
    unfold center_range. cbn [p_left p_len p_right].
    assert (HCpos : 0 < length C) by (destruct C; [done | simpl; lia]).
    assert (Hll : length l = length L + length C + length R) by (rewrite HLCR, !app_length; lia).
    destruct (left =? length l) eqn:E; [lia|]. rewrite usub_Done by lia. rewrite !bind_Done.
    replace (length l - length R) with (length L + length C) by lia. rewrite <- HL in *.
    assert (Hlr : l ++ rest = L ++ C ++ R ++ rest) by (by rewrite HLCR, <- !app_assoc).
    rewrite Hlr, slice_mid, bind_Done.
    rewrite (center_exec r addr (length L) co s sched C simd_op (map scalar_op)); [|done|done|done| |done].
    2: apply (blockwise_map (reg_len r) scalar_op).
    split.
    + intros Hfits.
      assert (Hal : half_aligned r addr) by (destruct Hfits as [|Hf]; [done | rewrite <- Hleq in Hf; lia]).
      rewrite (left_aligned r addr (length L) Hr Hal Hleft). rewrite Nat.eqb_refl, bind_Done.
      rewrite splice_mid by (by rewrite map_length). rewrite bind_Done.
      assert (Hll2 : length l = length (L ++ map scalar_op C ++ R)) by (rewrite !app_length, map_length; lia).
      replace (L ++ map scalar_op C ++ R ++ rest) with ((L ++ map scalar_op C ++ R) ++ rest) by (by rewrite <- !app_assoc).
      rewrite (slice_pre' _ _ _ Hll2), bind_Done.
      pose proof (edge_update_spec (fun _ x => Done (scalar_op x)) (fun _ => scalar_op) L (map scalar_op C) R) as Heu.
      rewrite map_length in Heu. rewrite Hll. rewrite Heu by done. rewrite bind_Done.
      rewrite !imap_map. rewrite splice_pre by (rewrite !app_length, !map_length; lia). rewrite bind_Done.
      eexists. split; [reflexivity|].
      replace (map scalar_op L ++ map scalar_op C ++ map scalar_op R) with (map scalar_op l) by (by rewrite HLCR, !map_app).
      apply (set_elems_after v l); try done. by rewrite map_length.
    + intros Hnf. assert (Hna : ~ half_aligned r addr) by (intros ?; apply Hnf; by left).
      by rewrite (not_half_aligned r addr (length L) Hr Hleft Hna).
Qed.

(** ** Complex operations *)

(** As [simd_fits], and no point is torn apart. *)
Definition csimd_fits (r : reg_type) (addr n : nat) : Prop :=
  (half_aligned r addr /\ point_aligned r addr) \/ n < (addr mod reg_bytes r) / elem_size r + reg_len r.

Lemma complex_to_array_inj {A} (c c' : list (A * A)) : complex_to_array c = complex_to_array c' -> c = c'.
Proof. intros H. rewrite <- (pairs_of_complex_to_array c), H. apply pairs_of_complex_to_array. Qed.

Lemma on_pairs_complex {A} (g : A * A -> A * A) c : on_pairs g (complex_to_array c) = complex_to_array (map g c).
Proof. unfold on_pairs. by rewrite pairs_of_complex_to_array. Qed.

Lemma div2_double n : 2 * n / 2 = n.
Proof. rewrite Nat.mul_comm. apply Nat.div_mul. lia. Qed.

Lemma even_mod_sub n m w : Nat.even w = true -> 0 < w -> Nat.even n = true -> Nat.even m = true -> m <= n ->
  Nat.even ((n - m) mod w) = true.
Proof.
  intros Hw Hp Hn Hm Hle. apply Nat.even_spec in Hw as [a ->], Hn as [b ->], Hm as [c ->].
  rewrite <- Nat.mul_sub_distr_l. rewrite Nat.mul_mod_distr_l by lia. rewrite Nat.even_mul. done.
Qed.

(** Complex data cut at even positions *)
Lemma cparts_of {A} (c : list (A * A)) left w : 0 < w -> Nat.even w = true -> Nat.even left = true -> left + w <= 2 * length c ->
  let right := (2 * length c - left) mod w in
  exists cl cc cr, c = cl ++ cc ++ cr /\ 2 * length cl = left /\ 2 * length cr = right /\ (2 * length cc) mod w = 0 /\ cc <> [].
Proof.
  intros Hw Hwe Hle Hlt right.
  assert (Hre : Nat.even right = true) by (apply even_mod_sub; [done | done | apply even_double | done | lia]).
  destruct (parts_of (complex_to_array c) left w) as (L & C & R & HLCR & HL & HR & HCm & HC & HCl);
    [done | by rewrite complex_to_array_length |].
  rewrite complex_to_array_length in HR, HCl. fold right in HR, HCl.
  destruct (exists_complex L) as [cl ->]; [by rewrite HL|].
  destruct (exists_complex R) as [cr ->]; [by rewrite HR|].
  destruct (exists_complex C) as [cc ->].
  { rewrite HCl. apply Nat.even_spec in Hre as [a ->], Hle as [b ->].
    replace (2 * length c - 2 * a - 2 * b) with (2 * (length c - a - b)) by lia. apply even_double. }
  rewrite complex_to_array_length in *. exists cl, cc, cr. split_and!; try done.
  - apply complex_to_array_inj. by rewrite !complex_to_array_app.
  - intros ->. done.
Qed.

Theorem simd_complex_operation_spec {A} r addr s sched (simd_op : list A -> list A) scalar_op co (v : dvec A) c :
  reg_ok r -> elem_aligned r addr -> no_threads_for_nothing co s -> vdata v = Done (complex_to_array c) ->
  (forall b, length b = reg_len r -> simd_op b = on_pairs scalar_op b) ->
  csimd_fits r addr (2 * length c) ->
  exists v', simd_complex_operation r addr s sched simd_op scalar_op co v = Done v' /\
    vdata v' = Done (complex_to_array (map scalar_op c)) /\ same_meta v v' /\ same_rest v v'.
Proof.
  intros Hr Ha Hs Hv Hop Hfits. destruct (vdata_split v _ Hv) as (rest & He & Hn).
  assert (Hl : 0 < reg_len r) by (by destruct Hr as (_ & ? & _)).
  assert (Hev : Nat.even (reg_len r) = true) by (by destruct Hr as (_ & _ & ?)).
  assert (Hmap : forall b : list A, length b = reg_len r -> simd_op b = on_pairs scalar_op b /\ length (on_pairs scalar_op b) = reg_len r)
    by (intros; rewrite on_pairs_length by congruence; auto).
  destruct (calc_data_alignment_reqs_spec r addr (valid_len v) Hr Ha) as (left & Hleft & Hlt & Hcase).
  pose proof (alignment_eq _ _ _ Hr Hleft) as Hleq.
  pose proof (complex_to_array_length c) as Hcl.
  unfold simd_complex_operation.
  destruct Hcase as [[Hsmall ->]|[Hbig ->]]; rewrite bind_Done.
  - rewrite He, Hn, slice_pre, bind_Done. unfold center_range. cbn [p_left p_len p_right]. rewrite Nat.eqb_refl, bind_Done.
    rewrite slice_Done by lia. rewrite bind_Done. rewrite Nat.sub_0_r, take_0, execute_partial_nil by done.
    pose proof (block_steps_spec (reg_len r) (regs_check r (addr + (0 + 0) * elem_size r) 0)
       (fun _ b => Done (simd_op b)) (fun _ => on_pairs scalar_op) 0 [] Hl (blockwise_pairs _ _ Hev)) as Hb. cbn [length] in Hb. rewrite Hb.
    2: intros _; apply Nat.mod_0_l; lia.
    2: { intros _ i b Hi. lia. }
    unfold regs_check at 1. rewrite Nat.eqb_refl. cbn [orb]. change (on_pairs scalar_op []) with (@nil A). rewrite bind_Done.
    rewrite splice_Done by (simpl; lia). rewrite bind_Done. rewrite take_0. cbn [app length Nat.add]. rewrite drop_0.
    rewrite slice_pre, bind_Done, array_to_complex_Done, bind_Done.
    rewrite Hcl, div2_double. rewrite (slice_Done c) by lia. rewrite bind_Done, Nat.sub_0_r, drop_0, take_ge by lia.
    pose proof (edge_update_spec (fun _ x => Done (scalar_op x)) (fun _ => scalar_op) c [] []) as Heu.
    cbn [app length Nat.add] in Heu. rewrite app_nil_r, !Nat.add_0_r in Heu. change (0 / 2) with 0. rewrite Heu by done. rewrite bind_Done.
    cbn [imap]. rewrite imap_map, app_nil_r.
    rewrite splice_pre by (by rewrite !complex_to_array_length, map_length). rewrite bind_Done.
    eexists. split; [reflexivity|]. apply (set_elems_after v (complex_to_array c)); try done.
    by rewrite !complex_to_array_length, map_length.
  - rewrite Hn, Hcl in Hbig.
    assert (Hal : half_aligned r addr /\ point_aligned r addr) by (destruct Hfits as [|Hf]; [done | rewrite <- Hleq in Hf; lia]).
    destruct Hal as [Hal1 Hal2]. pose proof (left_even r addr left Hr Hal2 Hleft) as Hle.
    destruct (cparts_of c left (reg_len r)) as (cl & cc & cr & Hc & HL & HR & HCm & HC); [done | done | done | done |].
    rewrite Hn, Hcl, <- HR. rewrite He, (slice_pre' (complex_to_array c)) by done. rewrite bind_Done.
    unfold center_range. cbn [p_left p_len p_right].
    assert (HCpos : 0 < length cc) by (destruct cc; [done | simpl; lia]).
    assert (Hll : length c = length cl + length cc + length cr) by (rewrite Hc, !app_length; lia).
    destruct (left =? 2 * length c) eqn:E; [lia|]. rewrite usub_Done by lia. rewrite !bind_Done.
    assert (HL' : left = length (complex_to_array cl)) by (rewrite complex_to_array_length; lia).
    replace (2 * length c - 2 * length cr) with (length (complex_to_array cl) + length (complex_to_array cc))
      by (rewrite !complex_to_array_length; lia).
    rewrite HL' in *.
    assert (Hlr : complex_to_array c ++ rest = complex_to_array cl ++ complex_to_array cc ++ complex_to_array cr ++ rest)
      by (by rewrite Hc, !complex_to_array_app, <- !app_assoc).
    rewrite Hlr, slice_mid, bind_Done.
    rewrite (center_exec r addr (length (complex_to_array cl)) co s sched (complex_to_array cc) simd_op (on_pairs scalar_op)).
    2: done. 2: { intros E'. apply (f_equal length) in E'. rewrite complex_to_array_length in E'. simpl in E'. lia. }
    2: by rewrite complex_to_array_length. 2: by apply (blockwise_pairs (reg_len r) scalar_op). 2: done.
    rewrite (left_aligned r addr _ Hr Hal1 Hleft). rewrite Nat.eqb_refl, bind_Done, on_pairs_complex.
    rewrite splice_mid by (by rewrite !complex_to_array_length, map_length). rewrite bind_Done.
    replace (complex_to_array cl ++ complex_to_array (map scalar_op cc) ++ complex_to_array cr ++ rest)
      with (complex_to_array (cl ++ map scalar_op cc ++ cr) ++ rest) by (by rewrite !complex_to_array_app, <- !app_assoc).
    rewrite slice_pre' by (rewrite complex_to_array_length, !app_length, map_length; lia). rewrite bind_Done.
    rewrite array_to_complex_Done, bind_Done, !div2_double.
    rewrite (slice_Done (cl ++ map scalar_op cc ++ cr)) by (rewrite ?app_length, ?map_length; lia).
    rewrite bind_Done, Nat.sub_0_r, drop_0, take_ge by (rewrite !app_length, map_length; lia).
    pose proof (edge_update_spec (fun _ x => Done (scalar_op x)) (fun _ => scalar_op) cl (map scalar_op cc) cr) as Heu.
    rewrite map_length in Heu. rewrite complex_to_array_length, div2_double, Hll. rewrite Heu by done. rewrite bind_Done.
    rewrite !imap_map. rewrite splice_pre by (rewrite !complex_to_array_length, !app_length, !map_length; lia). rewrite bind_Done.
    eexists. split; [reflexivity|].
    replace (map scalar_op cl ++ map scalar_op cc ++ map scalar_op cr) with (map scalar_op c) by (by rewrite Hc, !map_app).
    apply (set_elems_after v (complex_to_array c)); try done. by rewrite !complex_to_array_length, map_length.
Qed.

(** ** Operations without registers *)

Theorem pure_real_operation_spec {A} s sched (op : A -> A) co (v : dvec A) l :
  vdata v = Done l -> l <> [] \/ no_threads_for_nothing co s ->
  exists v', pure_real_operation s sched op co v = Done v' /\ vdata v' = Done (map op l) /\ same_meta v v' /\ same_rest v v'.
Proof.
  intros Hv Hs. destruct (vdata_split v l Hv) as (rest & He & Hn).
  unfold pure_real_operation. rewrite He, (slice_pre' _ _ _ Hn), bind_Done.
  assert (Hex : execute_partial co s sched l 1 (fun _ n => elem_steps (fun _ x => Done (op x)) n) = Done (map op l)).
  { assert (Hel : forall c : list A, run_steps (elem_steps (fun _ x => Done (op x)) (length c)) c = Done (map op c)).
    { intros c. rewrite (elem_steps_spec _ (fun _ => op)) by done. by rewrite imap_map. }
    destruct l as [|x l].
    - destruct Hs as [|Hs]; [done|]. by rewrite execute_partial_nil.
    - rewrite (execute_partial_any co s sched _ 1 _ (fun _ l => Done (map op l))); [done | lia | done | apply splittable_map |].
      intros off c. apply Hel. }
  rewrite Hex, bind_Done. rewrite splice_pre by (by rewrite map_length). rewrite bind_Done.
  eexists. split; [reflexivity|]. apply (set_elems_after v l); try done. by rewrite map_length.
Qed.

Theorem pure_complex_operation_spec {A} s sched (op : A * A -> A * A) co (v : dvec A) c :
  vdata v = Done (complex_to_array c) -> c <> [] \/ no_threads_for_nothing co s ->
  exists v', pure_complex_operation s sched op co v = Done v' /\ vdata v' = Done (complex_to_array (map op c)) /\
    same_meta v v' /\ same_rest v v'.
Proof.
  intros Hv Hs. destruct (vdata_split v _ Hv) as (rest & He & Hn).
  unfold pure_complex_operation. rewrite He, (slice_pre' _ _ _ Hn), bind_Done.
  assert (Hst : forall l : list A, run_steps (block_steps 2 (length l mod 2 =? 0) (fun _ b => Done (on_pairs op b)) (length l)) l =
                     if length l mod 2 =? 0 then Done (on_pairs op l) else Panicked).
  { intros l. apply (block_steps_spec 2 _ _ (fun _ => on_pairs op) 0); [lia | by apply blockwise_pairs | lia |].
    intros _ i b _ Hb. split; [done|]. rewrite on_pairs_length; [done | by rewrite Hb]. }
  assert (Hex : execute_partial co s sched (complex_to_array c) 2
     (fun _ n => block_steps 2 (n mod 2 =? 0) (fun _ b => Done (on_pairs op b)) n) = Done (complex_to_array (map op c))).
  { destruct c as [|x c].
    - destruct Hs as [|Hs]; [done|]. cbn [complex_to_array map]. by rewrite execute_partial_nil.
    - rewrite (execute_partial_any co s sched _ 2 _ (fun _ l => if length l mod 2 =? 0 then Done (on_pairs op l) else Panicked)).
      + rewrite complex_to_array_length, (Nat.mul_comm 2), Nat.mod_mul by lia. rewrite Nat.eqb_refl. by rewrite on_pairs_complex.
      + lia.
      + by destruct x.
      + apply (splittable_check 2 (fun _ n => n mod 2 =? 0) (fun _ => on_pairs op)); [lia | |].
        * intros off b l Hb. apply (blockwise_app 2 (fun _ => on_pairs op) off b l); [lia | by apply blockwise_pairs | done].
        * intros _ n1 n2 H1. rewrite H1. cbn [andb]. rewrite Nat.add_mod, H1, Nat.add_0_l, Nat.mod_mod by lia. done.
      + intros off l. apply Hst. }
  rewrite Hex, bind_Done. rewrite splice_pre by (by rewrite !complex_to_array_length, map_length). rewrite bind_Done.
  eexists. split; [reflexivity|]. apply (set_elems_after v (complex_to_array c)); try done. by rewrite !complex_to_array_length, map_length.
Qed.
