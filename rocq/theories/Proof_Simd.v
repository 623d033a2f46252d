From Verif Require Export Proof_Chunk.

(** ** Steps of a worker *)

Lemma elem_steps_from {A} (op : nat -> A -> run A) (g : nat -> A -> A) (pre rest : list A) :
  (forall i x, rest !! i = Some x -> op (length pre + i) x = Done (g (length pre + i) x)) ->
  run_steps (map (fun i c => x ← rd c i; y ← op i x; wr c i y) (seq (length pre) (length rest))) (pre ++ rest) =
  Done (pre ++ imap (fun i => g (length pre + i)) rest).
Proof.
  revert pre. induction rest as [|x rest IH]; intros pre Hop; [done|].
  cbn [length seq map]. rewrite run_steps_cons.
  assert (Hx : (pre ++ x :: rest) !! length pre = Some x) by (rewrite lookup_app_r, Nat.sub_diag by lia; done).
  rewrite (proj2 (rd_Done _ _ _) Hx), bind_Done.
  specialize (Hop 0 x eq_refl) as H0. rewrite Nat.add_0_r in H0. rewrite H0, bind_Done.
  rewrite wr_Done by (rewrite app_length; simpl; lia). rewrite bind_Done.
  rewrite insert_app_r_alt, Nat.sub_diag by lia. simpl insert.
  replace (pre ++ g (length pre) x :: rest) with ((pre ++ [g (length pre) x]) ++ rest) by (by rewrite <- app_assoc).
  replace (S (length pre)) with (length (pre ++ [g (length pre) x])) by (rewrite app_length; simpl; lia).
  rewrite IH.
  - rewrite <- app_assoc. cbn [imap app]. rewrite Nat.add_0_r. do 3 f_equal. apply imap_ext. intros i y _. simpl. f_equal.
    rewrite app_length. simpl. lia.
  - intros i y Hi. rewrite app_length. simpl. specialize (Hop (S i) y Hi).
    replace (length pre + 1 + i) with (length pre + S i) by lia. done.
Qed.

Lemma elem_steps_spec {A} (op : nat -> A -> run A) (g : nat -> A -> A) (l : list A) :
  (forall i x, l !! i = Some x -> op i x = Done (g i x)) -> run_steps (elem_steps op (length l)) l = Done (imap g l).
Proof. intros H. unfold elem_steps. apply (elem_steps_from op g []). done. Qed.

(** A list function which works block by block *)
Definition blockwise {A} (w : nat) (f : nat -> list A -> list A) : Prop :=
  (forall off, f off [] = []) /\
  (forall off b l, length b = w -> f off (b ++ l) = f off b ++ f (off + w) l).

Lemma block_steps_from {A} w (op : nat -> list A -> run (list A)) f off (pre rest : list A) i0 k :
  0 < w -> blockwise w f -> length pre = i0 * w -> length rest = k * w ->
  (forall i b, i < k -> length b = w -> op (i0 + i) b = Done (f (off + (i0 + i) * w) b) /\ length (f (off + (i0 + i) * w) b) = w) ->
  run_steps (map (fun i c => b ← slice c (i * w) (i * w + w); b' ← op i b; splice c (i * w) b') (seq i0 k)) (pre ++ rest) =
  Done (pre ++ f (off + i0 * w) rest).
Proof.
  intros Hw [Hf0 Hf]. revert pre rest i0. induction k as [|k IH]; intros pre rest i0 Hp Hr Hop.
  - destruct rest; [|simpl in Hr; lia]. rewrite Hf0. done.
  - cbn [seq map]. rewrite run_steps_cons.
    rewrite slice_Done by (rewrite ?app_length; nia). rewrite bind_Done.
    replace (i0 * w + w - i0 * w) with w by lia.
    rewrite drop_app_ge by lia. replace (i0 * w - length pre) with 0 by lia. rewrite drop_0.
    assert (Hb : length (take w rest) = w) by (rewrite take_length; nia).
    destruct (Hop 0 (take w rest)) as [H1 H2]; [lia | done |]. rewrite Nat.add_0_r in H1, H2. rewrite H1, bind_Done.
    rewrite splice_Done by (rewrite H2, app_length; nia). rewrite bind_Done, H2.
    rewrite <- Hp, take_app. rewrite drop_app_ge by lia. replace (length pre + w - length pre) with w by lia. rewrite Hp.
    rewrite app_assoc. rewrite IH.
    + rewrite <- app_assoc. do 2 f_equal.
      replace (f (off + i0 * w) rest) with (f (off + i0 * w) (take w rest ++ drop w rest)) by (by rewrite take_drop).
      rewrite Hf by done. do 2 f_equal. lia.
    + rewrite app_length. lia.
    + rewrite drop_length. lia.
    + intros i b Hi Hlb. replace (S i0 + i) with (i0 + S i) by lia. apply Hop; [lia | done].
Qed.

Lemma block_steps_spec {A} w (pre : bool) (op : nat -> list A -> run (list A)) f off (c : list A) :
  0 < w -> blockwise w f -> (pre = true -> length c mod w = 0) ->
  (pre = true -> forall i b, i * w + w <= length c -> length b = w -> op i b = Done (f (off + i * w) b) /\ length (f (off + i * w) b) = w) ->
  run_steps (block_steps w pre op (length c)) c = if pre then Done (f off c) else Panicked.
Proof.
  intros Hw Hf Hpre Hop. unfold block_steps. rewrite run_steps_cons.
  destruct pre; [|done]. specialize (Hpre eq_refl). specialize (Hop eq_refl). simpl assert_. rewrite !bind_Done.
  pose proof (Nat.div_mod (length c) w ltac:(lia)) as Hd.
  pose proof (block_steps_from w op f off [] c 0 (length c / w) Hw Hf) as H. cbn [app] in H. rewrite H; [|done|lia|].
  - rewrite Nat.mul_0_l, Nat.add_0_r. done.
  - intros i b Hi Hb. simpl. apply Hop; [nia | done].
Qed.

Lemma splittable_check {A} w (check : nat -> nat -> bool) (f : nat -> list A -> list A) :
  0 < w ->
  (forall off b l, length b mod w = 0 -> f off (b ++ l) = f off b ++ f (off + length b) l) ->
  (forall off n1 n2, n1 mod w = 0 -> check off (n1 + n2) = check off n1 && check (off + n1) n2) ->
  splittable w (fun off l => if check off (length l) then Done (f off l) else Panicked).
Proof.
  intros Hw Hf Hc off l1 l2 Hl. rewrite app_length, Hc by done.
  destruct (check off (length l1)); simpl; [|done].
  destruct (check (off + length l1) (length l2)); simpl; [|done]. by rewrite Hf.
Qed.

Lemma blockwise_app {A} w (f : nat -> list A -> list A) off b l : 0 < w ->
  blockwise w f -> length b mod w = 0 -> f off (b ++ l) = f off b ++ f (off + length b) l.
Proof.
  intros Hw [Hf0 Hf] Hb. apply Nat.mod_divide in Hb as [k Hk]; [|lia]. revert b off Hk.
  induction k as [|k IH]; intros b off Hk.
  - destruct b; [|simpl in Hk; lia]. by rewrite Hf0, Nat.add_0_r.
  - assert (Ht : length (take w b) = w) by (rewrite take_length; nia).
    rewrite <- (take_drop w b) at 1. rewrite <- app_assoc, Hf by done.
    rewrite IH by (rewrite drop_length; lia). rewrite app_assoc, <- Hf by done. rewrite take_drop.
    f_equal. f_equal. rewrite drop_length. nia.
Qed.

Lemma regs_check_split r base n1 n2 off : reg_ok r -> n1 mod reg_len r = 0 ->
  regs_check r (base + off * elem_size r) (n1 + n2) =
  regs_check r (base + off * elem_size r) n1 && regs_check r (base + (off + n1) * elem_size r) n2.
Proof.
  intros (He & Hl & _) H1. unfold regs_check, reg_bytes.
  assert (Hadd : (base + (off + n1) * elem_size r) mod (reg_len r * elem_size r) =
                 (base + off * elem_size r) mod (reg_len r * elem_size r)).
  { apply Nat.mod_divide in H1 as [k ->]; [|lia].
    replace (base + (off + k * reg_len r) * elem_size r) with (base + off * elem_size r + k * (reg_len r * elem_size r)) by nia.
    apply Nat.mod_add. nia. }
  rewrite Hadd.
  assert (Hm : (n1 + n2) mod reg_len r = n2 mod reg_len r).
  { rewrite Nat.add_mod, H1, Nat.add_0_l, Nat.mod_mod by lia. done. }
  rewrite Hm, H1. destruct (_ mod (reg_len r * elem_size r) =? 0) eqn:Ea.
  - cbn [andb]. rewrite !Nat.eqb_refl, !orb_true_r. cbn [andb].
    destruct n2 as [|n2]; [|by destruct n1]. rewrite Nat.mod_0_l by lia. by rewrite Nat.eqb_refl, orb_true_r.
  - cbn [andb]. rewrite !orb_false_r. destruct n1, n2; done.
Qed.

(** ** The edges *)

Lemma edge_walk_spec fuel pos left right end_ :
  (0 <= pos)%Z -> (-1 <= left)%Z -> (left < right)%Z -> (right <= end_ + 1)%Z -> (end_ + 1 - pos < Z.of_nat fuel)%Z ->
  (0 <= end_ + 1)%Z ->
  edge_walk fuel pos left right end_ =
    seq (Z.to_nat pos) (Z.to_nat (left + 1 - pos)) ++
    seq (Z.to_nat (Z.max pos right)) (Z.to_nat (end_ + 1 - Z.max pos right)).
Proof.
  revert pos. induction fuel as [|fuel IH]; intros pos H1 H2 H3 H4 H5 H6.
  - replace (Z.to_nat (left + 1 - pos)) with 0 by lia.
    replace (Z.to_nat (end_ + 1 - Z.max pos right)) with 0 by lia. done.
  - cbn [edge_walk]. cbv zeta.
    destruct ((left <? pos)%Z && (pos <? right)%Z) eqn:E1.
    + replace (Z.to_nat (left + 1 - pos)) with 0 by lia. simpl app. rewrite Z.max_r by lia.
      destruct (end_ <? right)%Z eqn:E2.
      * replace (Z.to_nat (end_ + 1 - right)) with 0 by lia. done.
      * rewrite IH by lia. replace (Z.to_nat (left + 1 - (right + 1))) with 0 by lia. simpl app.
        rewrite Z.max_l by lia. replace (Z.to_nat (right + 1)) with (S (Z.to_nat right)) by lia.
        replace (Z.to_nat (end_ + 1 - right)) with (S (Z.to_nat (end_ + 1 - (right + 1)))) by lia. done.
    + destruct (end_ <? pos)%Z eqn:E2.
      * replace (Z.to_nat (left + 1 - pos)) with 0 by lia.
        replace (Z.to_nat (end_ + 1 - Z.max pos right)) with 0 by lia. done.
      * rewrite IH by lia. destruct (decide (pos <= left)%Z) as [Hl|Hl].
        -- replace (Z.to_nat (left + 1 - pos)) with (S (Z.to_nat (left + 1 - (pos + 1)))) by lia.
           cbn [seq app]. replace (Z.to_nat (pos + 1)) with (S (Z.to_nat pos)) by lia. do 2 f_equal.
           replace (Z.max (pos + 1) right) with (Z.max pos right) by lia. done.
        -- replace (Z.to_nat (left + 1 - pos)) with 0 by lia.
           replace (Z.to_nat (left + 1 - (pos + 1))) with 0 by lia. simpl app.
           rewrite !Z.max_l by lia. replace (Z.to_nat (pos + 1)) with (S (Z.to_nat pos)) by lia.
           replace (Z.to_nat (end_ + 1 - pos)) with (S (Z.to_nat (end_ + 1 - (pos + 1)))) by lia. done.
Qed.

Theorem edge_positions_spec len left right : left + right <= len ->
  edge_positions len left right = seq 0 left ++ seq (len - right) right.
Proof.
  intros H. unfold edge_positions. rewrite edge_walk_spec by lia.
  f_equal; f_equal; lia.
Qed.

Lemma edge_fold_seq {A} (op : nat -> A -> run A) g (pre x post : list A) :
  (forall i y, x !! i = Some y -> op (length pre + i) y = Done (g (length pre + i) y)) ->
  foldl (fun m p => l ← m; x ← rd l p; y ← op p x; wr l p y) (Done (pre ++ x ++ post)) (seq (length pre) (length x)) =
  Done (pre ++ imap (fun i => g (length pre + i)) x ++ post).
Proof.
  revert pre. induction x as [|y x IH]; intros pre Hop; [done|].
  cbn [length seq foldl]. rewrite bind_Done.
  assert (Hx : (pre ++ (y :: x) ++ post) !! length pre = Some y) by (rewrite lookup_app_r, Nat.sub_diag by lia; done).
  rewrite (proj2 (rd_Done _ _ _) Hx), bind_Done.
  specialize (Hop 0 y eq_refl) as H0. rewrite Nat.add_0_r in H0. rewrite H0, bind_Done.
  rewrite wr_Done by (rewrite app_length; simpl; lia).
  rewrite insert_app_r_alt, Nat.sub_diag by lia. simpl insert.
  replace (pre ++ g (length pre) y :: x ++ post) with ((pre ++ [g (length pre) y]) ++ x ++ post) by (by rewrite <- app_assoc).
  replace (S (length pre)) with (length (pre ++ [g (length pre) y])) by (rewrite app_length; simpl; lia).
  rewrite IH.
  - rewrite <- app_assoc. cbn [imap app]. rewrite Nat.add_0_r. do 4 f_equal. apply imap_ext. intros i z _. simpl. f_equal.
    rewrite app_length. simpl. lia.
  - intros i z Hi. rewrite app_length. simpl. specialize (Hop (S i) z Hi).
    replace (length pre + 1 + i) with (length pre + S i) by lia. done.
Qed.

Lemma edge_update_spec {A} (op : nat -> A -> run A) g (L C R : list A) :
  (forall i y, L !! i = Some y -> op i y = Done (g i y)) ->
  (forall i y, R !! i = Some y -> op (length L + length C + i) y = Done (g (length L + length C + i) y)) ->
  edge_update (length L + length C + length R) (length L) (length R) op (L ++ C ++ R) =
  Done (imap g L ++ C ++ imap (fun i => g (length L + length C + i)) R).
Proof.
  intros HL HR. unfold edge_update. rewrite edge_positions_spec by lia. rewrite foldl_app.
  assert (H : foldl (fun m p => l ← m; x ← rd l p; y ← op p x; wr l p y) (Done (L ++ C ++ R)) (seq 0 (length L)) =
              Done (imap g L ++ C ++ R)) by (by apply (edge_fold_seq op g [] L (C ++ R))).
  rewrite H. clear H.
  replace (length L + length C + length R - length R) with (length (imap g L ++ C)) by (rewrite app_length, imap_length; lia).
  pose proof (edge_fold_seq op g (imap g L ++ C) R []) as H. rewrite !app_nil_r in H.
  replace (imap g L ++ C ++ R) with ((imap g L ++ C) ++ R) by (by rewrite app_assoc).
  rewrite H.
  - rewrite <- app_assoc. do 3 f_equal. apply imap_ext. intros i y _. simpl. f_equal. rewrite app_length, imap_length. lia.
  - intros i y Hi. rewrite app_length, imap_length. auto.
Qed.

Lemma edge_fold_zip {A B} (op : A -> B -> A) (pre x post : list A) (o : list B) :
  length o = length x ->
  foldl (fun m '(p, o) => l ← m; x ← rd l p; wr l p (op x o)) (Done (pre ++ x ++ post)) (zip (seq (length pre) (length x)) o) =
  Done (pre ++ zip_with op x o ++ post).
Proof.
  revert pre o. induction x as [|y x IH]; intros pre [|z o] Hl; try done.
  cbn [length seq zip_with foldl]. rewrite bind_Done.
  assert (Hx : (pre ++ (y :: x) ++ post) !! length pre = Some y) by (rewrite lookup_app_r, Nat.sub_diag by lia; done).
  rewrite (proj2 (rd_Done _ _ _) Hx), bind_Done.
  rewrite wr_Done by (rewrite app_length; simpl; lia).
  rewrite insert_app_r_alt, Nat.sub_diag by lia. simpl insert.
  replace (pre ++ op y z :: x ++ post) with ((pre ++ [op y z]) ++ x ++ post) by (by rewrite <- app_assoc).
  replace (S (length pre)) with (length (pre ++ [op y z])) by (rewrite app_length; simpl; lia).
  rewrite IH by (simpl in Hl; lia). rewrite <- app_assoc. done.
Qed.

Lemma edge_update_zip_spec {A B} (op : A -> B -> A) (L C R : list A) (OL OR : list B) :
  length OL = length L -> length OR = length R ->
  edge_update_zip (length L + length C + length R) (length L) (length R) (OL ++ OR) op (L ++ C ++ R) =
  Done (zip_with op L OL ++ C ++ zip_with op R OR).
Proof.
  intros HL HR. unfold edge_update_zip. rewrite edge_positions_spec by lia.
  rewrite zip_with_app by (rewrite seq_length; done). rewrite foldl_app.
  pose proof (edge_fold_zip op [] L (C ++ R) OL HL) as H. cbn [app length] in H. rewrite H. clear H.
  assert (Hz : length (zip_with op L OL) = length L) by (rewrite zip_with_length; lia).
  replace (length L + length C + length R - length R) with (length (zip_with op L OL ++ C)) by (rewrite app_length; lia).
  pose proof (edge_fold_zip op (zip_with op L OL ++ C) R [] OR HR) as H. rewrite !app_nil_r in H.
  replace (zip_with op L OL ++ C ++ R) with ((zip_with op L OL ++ C) ++ R) by (by rewrite app_assoc).
  rewrite H. by rewrite <- app_assoc.
Qed.

(** ** The partition *)

Lemma calc_data_alignment_reqs_spec r addr n : reg_ok r -> elem_aligned r addr ->
  exists left, left * elem_size r = addr mod reg_bytes r /\ left < reg_len r /\
  (n < left + reg_len r /\ calc_data_alignment_reqs r addr n = Done (SimdPartition n 0 n) \/
   left + reg_len r <= n /\ calc_data_alignment_reqs r addr n = Done (SimdPartition left ((n - left) mod reg_len r) n)).
Proof.
  intros (He & Hl & Hev) Ha. unfold calc_data_alignment_reqs.
  assert (Hb : reg_bytes r <> 0) by (unfold reg_bytes; nia).
  rewrite umod_Done by done. rewrite bind_Done.
  assert (Hmod : (addr mod reg_bytes r) mod elem_size r = 0).
  { unfold reg_bytes. rewrite (Nat.mul_comm (reg_len r)). rewrite Nat.mod_mul_r by lia.
    rewrite Nat.mul_comm, Nat.mod_add by lia. rewrite Nat.mod_mod by lia. done. }
  rewrite umod_Done by lia. rewrite bind_Done, Hmod. simpl assert_. rewrite bind_Done.
  rewrite udiv_Done by lia. rewrite bind_Done.
  pose proof (Nat.div_mod (addr mod reg_bytes r) (elem_size r) ltac:(lia)) as Hd.
  pose proof (Nat.mod_upper_bound addr (reg_bytes r) Hb) as Hu.
  set (left := (addr mod reg_bytes r) / elem_size r) in *.
  rewrite Hmod, Nat.add_0_r in Hd. clearbody left.
  exists left. split; [lia|]. split.
  { apply (Nat.mul_lt_mono_pos_l (elem_size r)); [lia|]. rewrite <- Hd, (Nat.mul_comm (elem_size r) (reg_len r)). exact Hu. }
  destruct (n <? left + reg_len r) eqn:E; [left; split; [lia | done] | right; split; [lia|]].
  rewrite umod_Done by lia. done.
Qed.

Lemma left_aligned r addr left : reg_ok r -> half_aligned r addr -> left * elem_size r = addr mod reg_bytes r ->
  (addr + left * elem_size r) mod reg_bytes r = 0.
Proof.
  intros (He & Hl & Hev) Hh ->. assert (Hb : reg_bytes r <> 0) by (unfold reg_bytes; nia).
  rewrite Nat.add_mod_idemp_r by done. unfold half_aligned in Hh. by replace (addr + addr) with (2 * addr) by lia.
Qed.

Lemma left_even r addr left : reg_ok r -> point_aligned r addr -> left * elem_size r = addr mod reg_bytes r -> Nat.even left = true.
Proof.
  intros (He & Hl & Hev) Hh Hleft. apply Nat.even_spec in Hev as [h Hh2]. unfold point_aligned in Hh.
  apply Nat.mod_divide in Hh as [k Hk]; [|lia].
  pose proof (Nat.div_mod addr (reg_bytes r) ltac:(unfold reg_bytes; nia)) as Hd.
  rewrite <- Hleft in Hd. unfold reg_bytes in *. rewrite Hh2 in Hd. set (q := addr / _) in Hd.
  apply Nat.even_spec. exists (k - h * q). nia.
Qed.
