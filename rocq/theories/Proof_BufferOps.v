(** The operations with buffers: reorganisation, conversions, transforms, convolution, interpolation. *)
From Verif Require Import Proof_Base Proof_Vec Proof_Frame Proof_FrameB Proof_Simd.
From Verif Require Export Proof_Buffer Model_Interop.
From stdpp Require Import list list_numbers tactics.
From Verif Require Import Model_Chunk Model_Reorg.

Lemma same_run_rel {X} (r1 r2 : run X) : rel eq r1 r2 <-> same_run r1 r2.
Proof. by destruct r1, r2. Qed.
Definition same_vb {A V} (x y : V * buffer A) : Prop := fst x = fst y /\ alike (snd x) (snd y).
Definition same_vbr {A V} (x y : V * buffer A * result unit) : Prop := same_vb (fst x) (fst y) /\ snd x = snd y.
Lemma same_vector_rel {A V} (r1 r2 : run (V * buffer A)) : rel same_vb r1 r2 <-> same_vector r1 r2.
Proof. destruct r1 as [[]|], r2 as [[]|]; done. Qed.
Lemma same_answer_rel {A V} (r1 r2 : run (V * buffer A * result unit)) : rel same_vbr r1 r2 <-> same_answer r1 r2.
Proof. destruct r1 as [[[]]|], r2 as [[[]]|]; cbn; try done. unfold same_vbr, same_vb. cbn. tauto. Qed.

Lemma alike_refl {A} (b : buffer A) : alike b b.
Proof. by destruct b. Qed.
Lemma rel_borrow {A} (z : A) b1 b2 n : alike b1 b2 -> rel (fun t1 t2 => length t1 = n /\ length t2 = n) (borrow z b1 n) (borrow z b2 n).
Proof.
  intros Hb. assert (Hl : forall b t, borrow z b n = Done t -> length t = n) by (intros b t; apply borrow_len).
  destruct b1 as [t1| |s1], b2 as [t2| |s2]; try done; cbn [borrow rel].
  - split; apply resized_length.
  - split; [apply resized_length|apply replicate_length].
  - split; [apply replicate_length|apply resized_length].
  - split; apply replicate_length.
  - cbn [alike] in Hb. rewrite <- Hb. destruct (Nat.ltb_spec (length s1) n); [done|]. cbn [rel]. rewrite !take_length. split; lia.
Qed.
Lemma trade_alike {A} b1 b2 t (s : storage A) st1 c1 st2 c2 : alike b1 b2 -> trade b1 t s = (st1, c1) -> trade b2 t s = (st2, c2) -> st1 = st2 /\ alike c1 c2.
Proof.
  destruct b1, b2; try done; cbn [trade]; intros Hb [= <- <-] [= <- <-]; try done. split; [done|]. cbn in *. rewrite !app_length, !drop_length. lia.
Qed.
Lemma give_back_alike {A} b1 b2 (t1 t2 : list A) : alike b1 b2 -> alike (give_back b1 t1) (give_back b2 t2).
Proof. by destruct b1, b2. Qed.
Lemma no_trade_alike {A} (b1 b2 : buffer A) : alike b1 b2 -> alike (no_trade b1) (no_trade b2).
Proof. by destruct b1, b2. Qed.

(** The end of an operation: the borrowed list is traded for the storage *)
Lemma rel_trade {A W Z} (S : W -> Z -> Prop) b1 b2 (t1 t2 : list A) (s : storage A) f g : alike b1 b2 -> t1 = t2 ->
  (forall st c1 c2, alike c1 c2 -> rel S (f st c1) (g st c2)) ->
  rel S (let '(st, b') := trade b1 t1 s in f st b') (let '(st, b') := trade b2 t2 s in g st b').
Proof.
  intros Hb <- Hfg. destruct (trade b1 t1 s) as [st1 c1] eqn:E1, (trade b2 t1 s) as [st2 c2] eqn:E2.
  destruct (trade_alike _ _ _ _ _ _ _ _ Hb E1 E2) as [-> Hc]. by apply Hfg.
Qed.


Ltac same := apply rel_same; let x := fresh "x" in let E := fresh "E" in intros x E.

(** Loops *)
Lemma rel_loop {S} (R : nat -> S -> S -> Prop) n i f g s1 s2 :
  (forall k s1 s2, i <= k < i + n -> R k s1 s2 -> rel (R (k + 1)) (f k s1) (g k s2)) -> R i s1 s2 -> rel (R (i + n)) (loop n i f s1) (loop n i g s2).
Proof.
  revert i s1 s2. induction n as [|n IH]; intros i s1 s2 Hf HR; [by rewrite Nat.add_0_r|]. cbn [loop]. eapply rel_bind.
  { apply Hf; [lia|done]. }
  intros t1 t2 Ht. replace (i + Datatypes.S n) with (i + 1 + n) by lia. apply IH; [|done]. intros k u1 u2 Hk. apply Hf. lia.
Qed.
Lemma rel_while {S} (R : S -> S -> Prop) fuel cond body body' s1 s2 : (forall s1 s2, R s1 s2 -> cond s1 = cond s2) ->
  (forall s1 s2, R s1 s2 -> cond s1 = true -> rel R (body s1) (body' s2)) -> R s1 s2 ->
  rel (fun s1 s2 => R s1 s2 /\ cond s1 = false) (while_ fuel cond body s1) (while_ fuel cond body' s2).
Proof.
  intros Hc Hb. revert s1 s2. induction fuel as [|fuel IH]; intros s1 s2 HR; [done|]. cbn [while_]. rewrite <- (Hc _ _ HR).
  destruct (cond s1) eqn:E; [|done]. eapply rel_bind; [by apply Hb|]. intros t1 t2 Ht. by apply IH.
Qed.
(** The elements at the given positions are overwritten. *)
Lemma rel_positions {X} n P (op : nat -> run X) ps (l1 l2 : list X) : agree n P l1 l2 ->
  rel (agree n (fun i => i ∈ ps \/ P i)) (foldl (fun m p => l ← m; x ← rd l p; y ← op p; wr l p y) (Done l1) ps)
    (foldl (fun m p => l ← m; x ← rd l p; y ← op p; wr l p y) (Done l2) ps).
Proof.
  assert (Hp : forall ps, foldl (fun m p => l ← m; x ← rd l p; y ← op p; wr l p y) (Panicked : run (list X)) ps = Panicked) by (intros q; by induction q).
  revert P l1 l2. induction ps as [|p ps IH]; intros P l1 l2 Ha.
  { cbn. eapply agree_mono; [|exact Ha]. intros i _ [Hi|Hi]; [by apply elem_of_nil in Hi|done]. }
  cbn [foldl]. rewrite !bind_Done.
  assert (Hr : rel (agree n (fun j => j = p \/ P j)) (x ← rd l1 p; y ← op p; wr l1 p y) (x ← rd l2 p; y ← op p; wr l2 p y)).
  { eapply rel_bind; [by apply (rel_rd n P)|]. intros x y _. same. eapply rel_mono; [|by apply rel_wr]. intros u w Hu. apply Hu. }
  destruct (x ← rd l1 p; y ← op p; wr l1 p y) as [m1|], (x ← rd l2 p; y ← op p; wr l2 p y) as [m2|]; cbn [rel] in Hr; try done; [|by rewrite Hp].
  eapply rel_mono; [|by apply IH]. intros u w. apply agree_mono. intros i _. rewrite elem_of_cons. tauto.
Qed.
Lemma rel_edges {X} n P (op : nat -> run X) len left right (l1 l2 : list X) : left + right <= len -> agree n P l1 l2 ->
  rel (agree n (fun i => i < left \/ len - right <= i < len \/ P i)) (edge_update len left right (fun i _ => op i) l1) (edge_update len left right (fun i _ => op i) l2).
Proof.
  intros Hl Ha. unfold edge_update. eapply rel_mono; [|by apply (rel_positions n P)]. intros x y. apply agree_mono. intros i _ Hi.
  rewrite edge_positions_spec by done. rewrite elem_of_app, !elem_of_list_In, !in_seq. destruct Hi as [?|[?|?]]; [left; left; lia|left; right; lia|by right].
Qed.
Lemma rel_edges_zip {X B} n P (op : B -> X) len left right (other : list B) (l1 l2 : list X) : left + right <= len -> length other = left + right -> agree n P l1 l2 ->
  rel (agree n (fun i => i < left \/ len - right <= i < len \/ P i)) (edge_update_zip len left right other (fun _ x => op x) l1)
    (edge_update_zip len left right other (fun _ x => op x) l2).
Proof.
  intros Hl Ho Ha. unfold edge_update_zip.
  assert (Hz : forall ps other P (l1 l2 : list X), length ps = length other -> agree n P l1 l2 ->
    rel (agree n (fun i => i ∈ ps \/ P i)) (foldl (fun m '(p, o) => l ← m; x ← rd l p; wr l p (op o)) (Done l1) (zip ps other))
     (foldl (fun m '(p, o) => l ← m; x ← rd l p; wr l p (op o)) (Done l2) (zip ps other))).
  { clear. assert (Hp : forall z, foldl (fun m '(p, o) => l ← m; x ← rd l p; wr l p (op o)) (Panicked : run (list X)) z = Panicked) by (intros q; induction q as [|[]]; done).
    intros ps. induction ps as [|p ps IH]; intros other P l1 l2 Hl Ha.
    { cbn. eapply agree_mono; [|exact Ha]. intros i _ [Hi|Hi]; [by apply elem_of_nil in Hi|done]. }
    destruct other as [|o other]; [done|]. cbn [foldl zip zip_with]. rewrite !bind_Done.
    assert (Hr : rel (agree n (fun j => j = p \/ P j)) (x ← rd l1 p; wr l1 p (op o)) (x ← rd l2 p; wr l2 p (op o))).
    { eapply rel_bind; [by apply (rel_rd n P)|]. intros x y _. eapply rel_mono; [|by apply rel_wr]. intros u w Hu. apply Hu. }
    destruct (x ← rd l1 p; wr l1 p (op o)) as [m1|], (x ← rd l2 p; wr l2 p (op o)) as [m2|]; cbn [rel] in Hr; try done; [|by rewrite Hp].
    eapply rel_mono; [|apply IH; [by injection Hl|exact Hr]]. intros u w. apply agree_mono. intros i _. rewrite elem_of_cons. tauto. }
  rewrite edge_positions_spec by done. eapply rel_mono; [|apply Hz; [rewrite app_length, !seq_length; lia|exact Ha]]. intros x y. apply agree_mono. intros i _ Hi.
  rewrite elem_of_app, !elem_of_list_In, !in_seq. destruct Hi as [?|[?|?]]; [left; left; lia|left; right; lia|by right].
Qed.

Lemma usub_eq a b x : usub a b = Done x -> b <= a /\ x = a - b.
Proof. unfold usub. destruct (Nat.leb_spec b a); [|done]. by intros [= <-]. Qed.

Section reorg.
Context {A : Type} (z : A).

Lemma rel_zero_interleave b1 b2 (v : dvec A) k : alike b1 b2 -> rel same_vb (zero_interleave_b z b1 v k) (zero_interleave_b z b2 v k).
Proof.
  intros Hb. unfold zero_interleave_b. destruct (k <=? 1); [done|]. eapply rel_bind; [by apply rel_borrow|]. intros t1 t2 Ht. same.
  eapply rel_bind; [by apply (rel_rd (k * len v) (fun _ => False)), agree_none|]. intros _ _ _. same.
  apply rel_trade; [done|done|]. intros st c1 c2 Hc. done.
Qed.

Lemma rel_zero_pad b1 b2 (v : dvec A) n o : alike b1 b2 -> wf v -> o <> Center -> rel same_vbr (zero_pad_b z b1 v n o) (zero_pad_b z b2 v n o).
Proof.
  intros Hb Hwf Ho. unfold zero_pad_b. cbv zeta. set (l := if is_complex v then 2 * n else n). destruct (Nat.leb_spec l (len v)) as [Hl|Hl]; [done|].
  eapply rel_bind; [by apply rel_borrow|]. intros t1 t2 Ht. pose proof (agree_none _ _ _ Ht) as Ha.
  apply (rel_bind eq).
  - destruct o; [| |done].
    + same. eapply rel_bind; [apply rel_copy, Ha|]. intros u1 u2 [_ Hu]. eapply rel_mono; [|apply rel_memzero, Hu]. intros w1 w2 [_ Hw].
      apply (agree_eq _ _ _ _ Hw). intros i Hi. lia.
    + apply rel_same. intros d Ed. apply usub_eq in Ed as [_ ->]. apply rel_same. intros left El. apply usub_eq in El as [Ele ->].
      same. eapply rel_bind; [apply rel_copy, Ha|]. intros u1 u2 [Hb1 Hu].
      set (c := is_complex v) in *. set (diff := (l - len v) / (if c then 2 else 1)) in *. set (right := if c then diff / 2 * 2 else diff / 2) in *.
      set (left := if c then (diff - diff / 2) * 2 else diff - diff / 2) in *.
      apply (rel_bind (fun x y => agree l (fun i => left <= i < left + len v \/ l - right <= i) x y)).
      * destruct (Nat.ltb_spec 0 right) as [Hr|Hr].
        -- same. apply usub_eq in E0 as [_ ->]. eapply rel_mono; [|apply rel_memzero, Hu].
           intros w1 w2 [_ Hw]. revert Hw. apply agree_mono. intros i Hi [Hq|Hq]; [right; by left|left; by split].
        -- cbn [rel]. revert Hu. apply agree_mono. intros i Hi [Hq|Hq]; [by left|]. exfalso. clearbody right left. lia.
      * intros w1 w2 Hw. eapply rel_mono; [|apply rel_memzero, Hw]. intros y1 y2 [_ Hy]. apply (agree_eq _ _ _ _ Hy). intros i Hi.
        assert (Hsum : l <= left + len v + right); [|clearbody left right l; clear -Hsum Hi; lia].
        clear - Hl Hwf. destruct Hwf as [_ He]. unfold left, right, diff. clear left right diff. subst c. destruct (is_complex v) eqn:Hc.
        -- assert (Hl2 : exists m, l - len v = 2 * m).
           { specialize (He eq_refl). apply Nat.even_spec in He as [m Hm]. unfold len in *. exists (n - m). unfold l. lia. }
           destruct Hl2 as [m Hm]. rewrite Hm, (Nat.mul_comm 2 m), Nat.div_mul by lia.
           pose proof (Nat.div_le_upper_bound m 2 m ltac:(lia) ltac:(lia)). clearbody l. lia.
        -- rewrite Nat.div_1_r. pose proof (Nat.div_le_upper_bound (l - len v) 2 (l - len v) ltac:(lia) ltac:(lia)). clearbody l. lia.
  - intros t1' t2' <-. apply rel_trade; [done|done|]. intros st c1 c2 Hc. done.
Qed.

(** A storage which can't grow is left without accessible data; the others don't use the buffer. *)
Definition resized_alike (x y : dvec A * buffer A * result unit) : Prop :=
  same_vbr x y \/ (vdata (fst (fst x)) = Panicked /\ vdata (fst (fst y)) = Panicked /\ alike (snd (fst x)) (snd (fst y)) /\ snd x = Ok tt /\ snd y = Ok tt).
Lemma rel_resize b1 b2 (v : dvec A) n : alike b1 b2 -> buffer_fits b1 (Model_Vec.data v) = true -> wf_storage (Model_Vec.data v) ->
  rel resized_alike (resize_b z b1 v n) (resize_b z b2 v n).
Proof.
  intros Hb Hf Hs. unfold resize_b. destruct (is_complex v && Nat.odd n) eqn:Eo; [by left|].
  destruct (Model_Vec.resize z v n) as [v' [[]|e]] eqn:E; [by left|].
  assert (Hv : v' = v /\ s_len (Model_Vec.data v) < n /\ s_kind (Model_Vec.data v) <> KVec).
  { unfold Model_Vec.resize in E. rewrite Eo in E. destruct (alloc_len v <? n); [|done]. unfold try_resize in E.
    destruct Hs as [Hs _]. destruct (s_kind (Model_Vec.data v)) eqn:Ek; [done|..].
    all: match type of E with context [if ?c then _ else _] => destruct c eqn:Ec; [|done] end; injection E as <- _; apply Nat.ltb_lt in Ec;
      (split; [by destruct v|]); (split; [lia|done]). }
  destruct Hv as (-> & Hn & Hk). eapply rel_bind; [by apply rel_borrow|]. intros t1 t2 Ht. same. pose proof (agree_none _ _ _ Ht) as Ha.
  eapply rel_bind; [apply rel_copy, Ha|]. intros u1 u2 [_ Hu].
  assert (Hfix : exists s1, b1 = FixedLenBuffer s1) by (destruct b1; cbn in Hf; [by destruct (s_kind _)|by destruct (s_kind _)|by eexists]).
  destruct Hfix as [s1 ->]. destruct b2 as [| |s2]; try done. cbn [trade rel]. right. cbn in Hb.
  assert (Hp : forall w : dvec A, length (elems w) = s_len (Model_Vec.data v) -> vdata (set_valid_len w n) = Panicked).
  { intros w Hw. unfold vdata, slice. change (elems (set_valid_len w n)) with (elems w). change (valid_len (set_valid_len w n)) with n.
    rewrite Hw. destruct (Nat.leb_spec n (s_len (Model_Vec.data v))); [lia|]. by rewrite andb_false_r. }
  destruct Hu as (L1 & L2 & _). split_and!; cbn [fst snd]; try done.
  - apply Hp. cbn. rewrite app_length, take_length, drop_length. unfold s_len. lia.
  - apply Hp. cbn. rewrite app_length, take_length, drop_length. unfold s_len. lia.
  - cbn. rewrite !app_length, !drop_length. lia.
Qed.
End reorg.
