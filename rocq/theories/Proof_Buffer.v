(** The results of the operations with buffers don't depend on the content of the buffer: lists which agree on the positions which were written. *)
From Verif Require Import Proof_Base Proof_Vec Proof_Frame.
From Verif Require Export Spec_Buffer Model_Chunk Model_Simd.
From stdpp Require Import list list_numbers tactics.
From Verif Require Import Model_Chunk.

Definition rel {X Y} (R : X -> Y -> Prop) (m1 : run X) (m2 : run Y) : Prop :=
  match m1, m2 with
  | Panicked, Panicked => True
  | Done x, Done y => R x y
  | _, _ => False
  end.
Lemma rel_bind {X Y X' Y'} (R : X -> Y -> Prop) (S : X' -> Y' -> Prop) m1 m2 f g :
  rel R m1 m2 -> (forall x y, R x y -> rel S (f x) (g y)) -> rel S (m1 ≫= f) (m2 ≫= g).
Proof. destruct m1, m2; cbn; try done. intros HR HS. by apply HS. Qed.
Lemma rel_same {X X' Y'} (S : X' -> Y' -> Prop) (m : run X) f g : (forall x, m = Done x -> rel S (f x) (g x)) -> rel S (m ≫= f) (m ≫= g).
Proof. destruct m; cbn; [|done]. intros HS. by apply HS. Qed.
Lemma rel_refl {X} (m : run X) : rel eq m m.
Proof. by destruct m. Qed.
Lemma rel_mono {X Y} (R S : X -> Y -> Prop) m1 m2 : (forall x y, R x y -> S x y) -> rel R m1 m2 -> rel S m1 m2.
Proof. destruct m1, m2; cbn; auto. Qed.
Lemma rel_eq {X} (m1 m2 : run X) : rel eq m1 m2 -> m1 = m2.
Proof. destruct m1, m2; cbn; try done. by intros ->. Qed.

(** Lists of the length [n] which agree on the positions [P] *)
Definition agree {X} (n : nat) (P : nat -> Prop) (l1 l2 : list X) : Prop := length l1 = n /\ length l2 = n /\ forall i, i < n -> P i -> l1 !! i = l2 !! i.
Lemma agree_none {X} (l1 l2 : list X) n : length l1 = n /\ length l2 = n -> agree n (fun _ => False) l1 l2.
Proof. intros [H1 H2]. by split_and!. Qed.
Lemma agree_eq {X} n (P : nat -> Prop) (l1 l2 : list X) : agree n P l1 l2 -> (forall i, i < n -> P i) -> l1 = l2.
Proof.
  intros (H1 & H2 & Ha) HP. apply list_eq. intros i. destruct (decide (i < n)) as [Hi|Hi]; [by apply Ha, HP|].
  rewrite !lookup_ge_None_2; [done|lia|lia].
Qed.
Lemma agree_refl {X} P (l : list X) : agree (length l) P l l.
Proof. done. Qed.
Lemma agree_mono {X} n (P Q : nat -> Prop) (l1 l2 : list X) : (forall i, i < n -> Q i -> P i) -> agree n P l1 l2 -> agree n Q l1 l2.
Proof. intros HQ (H1 & H2 & Ha). split_and!; auto. Qed.

Section prims.
Context {X : Type}.
Implicit Types l : list X.

Lemma rel_slice n P l1 l2 a b : agree n P l1 l2 -> rel (fun x y => a <= b <= n /\ agree (b - a) (fun i => P (a + i)) x y) (slice l1 a b) (slice l2 a b).
Proof.
  intros (H1 & H2 & Ha). unfold slice. rewrite H1, H2. destruct (Nat.leb_spec a b) as [G1|]; [|done]. destruct (Nat.leb_spec b n) as [G2|]; [|done]. cbn [andb rel].
  split; [done|]. split_and!; [rewrite take_length, drop_length; lia|rewrite take_length, drop_length; lia|].
  intros i Hi HP. rewrite !lookup_take by done. rewrite !lookup_drop. apply Ha; [lia|done].
Qed.
Lemma mid_lookup l a (x : list X) b i : a <= length l -> b = a + length x ->
  (take a l ++ x ++ drop b l) !! i = if (a <=? i) && (i <? b) then x !! (i - a) else l !! i.
Proof.
  intros Ha ->. destruct (Nat.leb_spec a i) as [H1|H1]; cbn [andb].
  - rewrite lookup_app_r by (rewrite take_length; lia). rewrite take_length, Nat.min_l by lia.
    destruct (Nat.ltb_spec i (a + length x)) as [H2|H2].
    + by rewrite lookup_app_l by lia.
    + rewrite lookup_app_r by lia. rewrite lookup_drop. f_equal. lia.
  - rewrite lookup_app_l by (rewrite take_length; lia). by rewrite lookup_take by lia.
Qed.
Lemma rel_splice n m P Q l1 l2 a x1 x2 : agree n P l1 l2 -> agree m Q x1 x2 ->
  rel (fun x y => a + m <= n /\ agree n (fun i => if (a <=? i) && (i <? a + m) then Q (i - a) else P i) x y) (splice l1 a x1) (splice l2 a x2).
Proof.
  intros (H1 & H2 & Ha) (G1 & G2 & Hb). unfold splice. rewrite H1, H2, G1, G2. destruct (Nat.leb_spec (a + m) n) as [Hle|]; [|done]. cbn [rel].
  split; [done|]. split_and!; [rewrite !app_length, take_length, drop_length; lia|rewrite !app_length, take_length, drop_length; lia|].
  intros i Hi. rewrite !mid_lookup by lia. destruct (Nat.leb_spec a i), (Nat.ltb_spec i (a + m)); cbn [andb]; try (by apply Ha). intros HQ. apply Hb; [lia|done].
Qed.
Lemma rel_copy n P l1 l2 a b x : agree n P l1 l2 -> rel (fun x y => a <= b <= n /\ agree n (fun i => a <= i < b \/ P i) x y) (copy_into l1 a b x) (copy_into l2 a b x).
Proof.
  intros (H1 & H2 & Ha). unfold copy_into. rewrite H1, H2. destruct (Nat.leb_spec a b) as [G1|]; [|done]. destruct (Nat.leb_spec b n) as [G2|]; [|done].
  destruct (Nat.eqb_spec (length x) (b - a)) as [H3|]; [|done]. cbn [andb rel]. split; [done|].
  split_and!; [rewrite !app_length, take_length, drop_length; lia|rewrite !app_length, take_length, drop_length; lia|].
  intros i Hi Hor. rewrite !mid_lookup by lia. destruct (Nat.leb_spec a i), (Nat.ltb_spec i b); cbn [andb]; try done; apply Ha; try lia; (destruct Hor; [lia|done]).
Qed.
Lemma rel_memzero n P l1 l2 a b (z : X) : agree n P l1 l2 -> rel (fun x y => a <= b <= n /\ agree n (fun i => a <= i < b \/ P i) x y) (memzero z l1 a b) (memzero z l2 a b).
Proof.
  intros (H1 & H2 & Ha). unfold memzero. rewrite H1, H2. destruct (Nat.leb_spec a b) as [G1|]; [|done]. destruct (Nat.leb_spec b n) as [G2|]; [|done].
  cbn [assert_ rel]. unfold assert_. rewrite !bind_Done. cbn [rel]. split; [done|].
  split_and!; [rewrite !app_length, take_length, drop_length, replicate_length; lia|rewrite !app_length, take_length, drop_length, replicate_length; lia|].
  intros i Hi Hor. rewrite !mid_lookup by (rewrite ?replicate_length; lia).
  destruct (Nat.leb_spec a i), (Nat.ltb_spec i b); cbn [andb]; try done; apply Ha; try lia; (destruct Hor; [lia|done]).
Qed.
Lemma rel_wr n P l1 l2 i x : agree n P l1 l2 -> rel (fun x y => i < n /\ agree n (fun j => j = i \/ P j) x y) (wr l1 i x) (wr l2 i x).
Proof.
  intros (H1 & H2 & Ha). unfold wr. rewrite H1, H2. destruct (Nat.ltb_spec i n) as [Hi|]; [|done]. cbn [rel]. split; [done|].
  split_and!; [by rewrite insert_length|by rewrite insert_length|].
  intros j Hj Hor. destruct (decide (j = i)) as [->|Hne]; [by rewrite !list_lookup_insert by lia|]. rewrite !list_lookup_insert_ne by done. apply Ha; [done|].
  by destruct Hor.
Qed.
Lemma rel_rd n P l1 l2 i : agree n P l1 l2 -> rel (fun x y => i < n /\ (P i -> x = y)) (rd l1 i) (rd l2 i).
Proof.
  intros (H1 & H2 & Ha). unfold rd. destruct (l1 !! i) eqn:E1, (l2 !! i) eqn:E2; cbn [rel]; try done.
  - apply lookup_lt_Some in E1 as Hi. split; [lia|]. intros HP. specialize (Ha i ltac:(lia) HP). congruence.
  - apply lookup_lt_Some in E1. apply lookup_ge_None in E2. lia.
  - apply lookup_lt_Some in E2. apply lookup_ge_None in E1. lia.
Qed.
Lemma rel_to_complex n P l1 l2 : agree n P l1 l2 ->
  rel (fun x y => n = 2 * (n / 2) /\ agree (n / 2) (fun i => P (2 * i) /\ P (2 * i + 1)) x y) (array_to_complex l1) (array_to_complex l2).
Proof.
  intros (H1 & H2 & Ha). unfold array_to_complex. rewrite H1, H2. destruct (Nat.even n) eqn:He; [|done]. unfold assert_. rewrite !bind_Done. cbn [rel].
  assert (He1 : Nat.even (length l1) = true) by (by rewrite H1). assert (He2 : Nat.even (length l2) = true) by (by rewrite H2).
  apply exists_complex in He1 as [c1 ->]. apply exists_complex in He2 as [c2 ->].
  rewrite !pairs_of_complex_to_array. rewrite complex_to_array_length in H1, H2.
  assert (Hn : n / 2 = length c1) by (subst n; rewrite (Nat.mul_comm 2), Nat.div_mul by lia; done).
  split; [lia|]. split_and!; [lia|lia|]. intros i Hi [G1 G2]. apply Ha in G1; [|lia]. apply Ha in G2; [|lia].
  destruct (complex_to_array_lookup c1 i) as [E1 E2], (complex_to_array_lookup c2 i) as [E3 E4]. rewrite E1, E3 in G1. rewrite E2, E4 in G2.
  destruct (c1 !! i) as [[x y]|], (c2 !! i) as [[x' y']|]; cbn in *; congruence.
Qed.
End prims.
Lemma agree_to_array {X} n P (c1 c2 : list (X * X)) : agree n P c1 c2 -> agree (2 * n) (fun i => P (i / 2)) (complex_to_array c1) (complex_to_array c2).
Proof.
  intros (H1 & H2 & Ha). split_and!; [rewrite complex_to_array_length; lia|rewrite complex_to_array_length; lia|]. intros i Hi HP.
  assert (Hi2 : i / 2 < n) by (apply Nat.div_lt_upper_bound; lia). specialize (Ha _ Hi2 HP).
  destruct (complex_to_array_lookup c1 (i / 2)) as [E1 E2], (complex_to_array_lookup c2 (i / 2)) as [E3 E4].
  destruct (Nat.Even_or_Odd i) as [[k ->]|[k ->]].
  - replace ((2 * k) / 2) with k in * by (rewrite (Nat.mul_comm 2 k), Nat.div_mul by lia; done). by rewrite E1, E3, Ha.
  - replace ((2 * k + 1) / 2) with k in * by (rewrite (Nat.add_comm (2 * k) 1), (Nat.mul_comm 2 k), Nat.div_add by lia; done). by rewrite E2, E4, Ha.
Qed.

(** ** Threads *)
Section pool.
Context {X : Type}.
(** [R c1 c2 rest]: what remains to be done with the pieces makes them equal *)
Definition converges (R : list X -> list X -> list (step X) -> Prop) : Prop :=
  (forall c1 c2, R c1 c2 [] -> c1 = c2) /\
  (forall c1 c2 s rest, R c1 c2 (s :: rest) -> rel (fun c1' c2' => R c1' c2' rest) (s c1) (s c2)).
Lemma run_steps_rel R steps c1 c2 : converges R -> R c1 c2 steps -> run_steps steps c1 = run_steps steps c2.
Proof.
  intros [H1 H2]. unfold run_steps. revert c1 c2. induction steps as [|s steps IH]; intros c1 c2 HR; [by rewrite (H1 _ _ HR)|].
  cbn. specialize (H2 _ _ _ _ HR). destruct (s c1) as [d1|] eqn:E1, (s c2) as [d2|] eqn:E2; cbn in H2; try done. by apply IH.
Qed.
Lemma finish_pool_rel R p1 p2 : converges R -> Forall2 (fun t1 t2 : task X => snd t1 = snd t2 /\ R (fst t1) (fst t2) (snd t1)) p1 p2 -> finish_pool p1 = finish_pool p2.
Proof.
  intros HR. induction 1 as [|[c1 s1] [c2 s2] p1 p2 [Hs Hc] _ IH]; [done|]. cbn in *. subst s2. rewrite (run_steps_rel R _ _ _ HR Hc). by rewrite IH.
Qed.
Lemma run_pool_rel R sched p1 p2 : converges R -> Forall2 (fun t1 t2 : task X => snd t1 = snd t2 /\ R (fst t1) (fst t2) (snd t1)) p1 p2 -> run_pool sched p1 = run_pool sched p2.
Proof.
  intros HR. revert p1 p2. induction sched as [|k sched IH]; intros p1 p2 Hp; [by apply (finish_pool_rel R)|]. cbn [run_pool].
  destruct (p1 !! k) as [[c1 s1]|] eqn:E1.
  - destruct (Forall2_lookup_l _ _ _ _ _ Hp E1) as ([c2 s2] & E2 & Hs & Hc). cbn in Hs, Hc. subst s2.
    match goal with |- _ = match ?x with _ => _ end => change x with (p2 !! k) end. rewrite E2. destruct s1 as [|s rest]; [by apply IH|].
    destruct HR as [HR1 HR2]. specialize (HR2 _ _ _ _ Hc). destruct (s c1) as [d1|], (s c2) as [d2|]; cbn in HR2; try done. cbn.
    apply IH. by apply Forall2_insert.
  - destruct (p2 !! k) as [[c2 s2]|] eqn:E2; [|by apply IH].
    destruct (Forall2_lookup_r _ _ _ _ _ Hp E2) as (t & E1' & _). discriminate (eq_trans (eq_sym E1) E1').
Qed.

Lemma chunks_fuel_shape fuel n (l1 l2 : list X) : length l1 = length l2 -> Forall2 (fun c1 c2 : list X => length c1 = length c2) (chunks_fuel fuel n l1) (chunks_fuel fuel n l2).
Proof.
  revert l1 l2. induction fuel as [|fuel IH]; intros l1 l2 Hl; [constructor|]. destruct l1 as [|x l1], l2 as [|y l2]; try done; [constructor|].
  cbn [chunks_fuel]. constructor; [rewrite !take_length; lia|]. apply IH. rewrite !drop_length. lia.
Qed.
Lemma partition_shape (l1 l2 : list X) w n : length l1 = length l2 -> rel (Forall2 (fun c1 c2 : list X => length c1 = length c2)) (partition l1 w n) (partition l2 w n).
Proof.
  intros Hl. unfold partition. rewrite <- Hl. apply rel_same. intros k _. unfold chunks. destruct (k =? 0); [done|]. cbn. rewrite <- Hl. by apply chunks_fuel_shape.
Qed.
Lemma with_offsets_shape (cs1 cs2 : list (list X)) off : Forall2 (fun c1 c2 : list X => length c1 = length c2) cs1 cs2 ->
  Forall2 (fun t1 t2 : nat * list X => fst t1 = fst t2 /\ length (snd t1) = length (snd t2)) (with_offsets off cs1) (with_offsets off cs2).
Proof. intros Hc. revert off. induction Hc as [|c1 c2 cs1 cs2 Hl Hc IH]; intros off; [constructor|]. cbn. constructor; [done|]. rewrite Hl. apply IH. Qed.

Lemma execute_rel R co s sched (l1 l2 : list X) w f : converges R -> length l1 = length l2 ->
  (forall rg c1 c2, length c1 = length c2 -> R c1 c2 (f rg (length c1))) ->
  execute_with_range co s sched l1 w f = execute_with_range co s sched l2 w f.
Proof.
  intros HR Hl Hf. unfold execute_with_range. rewrite <- Hl. destruct (1 <? _); [|by apply (run_steps_rel R), Hf].
  apply rel_eq. eapply rel_bind; [by apply partition_shape|]. intros cs1 cs2 Hcs. rewrite <- (Forall2_length _ _ _ Hcs). apply rel_same. intros ranges _.
  rewrite (run_pool_rel R sched _ (map (fun '(c, rg) => (c, f rg (length c))) (zip cs2 ranges))); [apply rel_refl|done|].
  clear - Hcs Hf. revert ranges. induction Hcs as [|c1 c2 cs1 cs2 Hc _ IH]; intros ranges; [constructor|]. destruct ranges as [|rg ranges]; [constructor|].
  cbn. constructor; [|apply IH]. cbn. rewrite <- Hc. auto.
Qed.

(** Every step writes its own element, whatever was there. *)
Definition filling (op : nat -> run X) (n : nat) (c1 c2 : list X) (rest : list (step X)) : Prop :=
  exists i, i <= n /\ n = length c1 /\ length c1 = length c2 /\ take i c1 = take i c2 /\ rest = map (fun i c => x ← rd c i; y ← op i; wr c i y) (seq i (n - i)).
Lemma filling_converges op n : converges (filling op n).
Proof.
  split.
  - intros c1 c2 (i & Hi & Hn & Hl & Ht & Hr). destruct (n - i) eqn:E; [|done]. rewrite !take_ge in Ht by lia. done.
  - intros c1 c2 s rest (i & Hi & Hn & Hl & Ht & Hr). destruct (n - i) as [|k] eqn:E; [done|]. cbn in Hr. injection Hr as -> ->.
    assert (Hi' : i < length c1) by lia. destruct (lookup_lt_is_Some_2 c1 i Hi') as [x1 E1]. destruct (lookup_lt_is_Some_2 c2 i ltac:(lia)) as [x2 E2].
    unfold rd. rewrite E1, E2. cbn. destruct (op i) as [y|]; [|done]. cbn. unfold wr. rewrite <- Hl. rewrite (proj2 (Nat.ltb_lt _ _) Hi'). cbn.
    exists (S i). rewrite !insert_length. split_and!; try done; try lia.
    + rewrite (take_S_r (<[i:=y]> c1) i y) by (apply list_lookup_insert; lia). rewrite (take_S_r (<[i:=y]> c2) i y) by (apply list_lookup_insert; lia).
      rewrite !take_insert by lia. by rewrite Ht.
    + by replace (n - S i) with k by lia.
Qed.
Lemma filling_start op n (c1 c2 : list X) : n = length c1 -> length c1 = length c2 -> filling op n c1 c2 (elem_steps (fun i _ => op i) n).
Proof. intros Hn Hl. exists 0. split_and!; try done; [lia|]. unfold elem_steps. by rewrite Nat.sub_0_r. Qed.
Lemma execute_filling co s sched (l1 l2 : list X) w (op : nat * nat -> nat -> run X) : length l1 = length l2 ->
  execute_with_range co s sched l1 w (fun rg n => elem_steps (fun i _ => op rg i) n) = execute_with_range co s sched l2 w (fun rg n => elem_steps (fun i _ => op rg i) n).
Proof.
  intros Hl. apply (execute_rel (fun c1 c2 rest => exists rg, filling (op rg) (length c1) c1 c2 rest)); [|done|].
  - split.
    + intros c1 c2 (rg & Hf). by apply (proj1 (filling_converges (op rg) (length c1))).
    + intros c1 c2 st rest (rg & Hf). pose proof (proj2 (filling_converges (op rg) (length c1)) _ _ _ _ Hf) as Hr.
      destruct (st c1) as [d1|] eqn:E1, (st c2) as [d2|] eqn:E2; cbn in *; try done. exists rg.
      assert (Hd : length d1 = length c1) by (destruct Hr as (i & _ & -> & _); done). by rewrite Hd.
  - intros rg c1 c2 Hc. exists rg. by apply filling_start.
Qed.
End pool.
