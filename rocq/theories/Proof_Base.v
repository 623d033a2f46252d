From Verif Require Export Spec.
From Coq Require Export ZifyBool ZifyNat.
Ltac Zify.zify_post_hook ::= Z.div_mod_to_equations.

Lemma bind_Done {A B} (a : A) (f : A -> run B) : (Done a ≫= f) = f a.
Proof. reflexivity. Qed.

Lemma bind_Done_inv {A B} (m : run A) (f : A -> run B) b :
  (m ≫= f) = Done b -> exists a, m = Done a /\ f a = Done b.
Proof. destruct m; intros H; [eexists; eauto | discriminate H]. Qed.

Lemma rd_Done {A} (l : list A) i x : rd l i = Done x <-> l !! i = Some x.
Proof. unfold rd. destruct (l !! i); split; congruence. Qed.

Lemma rd_lt {A} (l : list A) i : i < length l -> exists x, l !! i = Some x /\ rd l i = Done x.
Proof. intros H. destruct (lookup_lt_is_Some_2 l i H) as [x Hx]. exists x. by rewrite rd_Done. Qed.

Lemma wr_Done {A} (l : list A) i x : i < length l -> wr l i x = Done (<[i:=x]> l).
Proof. intros H. unfold wr. apply Nat.ltb_lt in H. by rewrite H. Qed.

Lemma wr_Panicked {A} (l : list A) i x : length l <= i -> wr l i x = Panicked.
Proof. intros H. unfold wr. apply Nat.ltb_ge in H. by rewrite H. Qed.

Lemma usub_Done a b : b <= a -> usub a b = Done (a - b).
Proof. intros H. unfold usub. apply Nat.leb_le in H. by rewrite H. Qed.

Lemma udiv_Done a b : b <> 0 -> udiv a b = Done (a / b).
Proof. destruct b; [lia | done]. Qed.
Lemma umod_Done a b : b <> 0 -> umod a b = Done (a mod b).
Proof. destruct b; [lia | done]. Qed.

Lemma slice_Done {A} (l : list A) a b : a <= b -> b <= length l -> slice l a b = Done (take (b - a) (drop a l)).
Proof.
  intros H1 H2. unfold slice. apply Nat.leb_le in H1, H2. by rewrite H1, H2.
Qed.

Lemma slice_inv {A} (l : list A) a b r :
  slice l a b = Done r -> a <= b /\ b <= length l /\ r = take (b - a) (drop a l) /\ length r = b - a.
Proof.
  unfold slice. intros H. destruct (a <=? b) eqn:E1; simpl in H; [|discriminate].
  destruct (b <=? length l) eqn:E2; simpl in H; [|discriminate].
  injection H as <-. rewrite take_length, drop_length. repeat split; lia.
Qed.

Lemma splice_Done {A} (l : list A) a new :
  a + length new <= length l -> splice l a new = Done (take a l ++ new ++ drop (a + length new) l).
Proof. intros H. unfold splice. apply Nat.leb_le in H. by rewrite H. Qed.

Lemma copy_into_Done {A} (l : list A) a b src :
  a <= b -> b <= length l -> length src = b - a -> copy_into l a b src = Done (take a l ++ src ++ drop b l).
Proof.
  intros H1 H2 H3. unfold copy_into. apply Nat.leb_le in H1, H2. apply Nat.eqb_eq in H3. by rewrite H1, H2, H3.
Qed.

Lemma assert_Done b : b = true -> assert_ b = Done tt.
Proof. by intros ->. Qed.

Lemma memzero_Done {A} (zero : A) d s e :
  s <= e -> e <= length d -> memzero zero d s e = Done (take s d ++ replicate (e - s) zero ++ drop e d).
Proof.
  intros H1 H2. unfold memzero. apply Nat.leb_le in H1, H2. by rewrite H1, H2.
Qed.

Lemma memcpy_Done {A} (d : list A) s e t :
  s <= e -> e <= length d -> t <= length d - (e - s) ->
  memcpy d s e t = Done (take t d ++ take (e - s) (drop s d) ++ drop (t + (e - s)) d).
Proof.
  intros H1 H2 H3. unfold memcpy. apply Nat.leb_le in H1, H2, H3. by rewrite H1, H2, H3.
Qed.

(** ** Loops *)

Lemma loop_inv {St} (P : nat -> St -> Prop) n i f (s : St) :
  P i s ->
  (forall j s, i <= j < i + n -> P j s -> exists s', f j s = Done s' /\ P (j + 1) s') ->
  exists s', loop n i f s = Done s' /\ P (i + n) s'.
Proof.
  revert i s. induction n as [|n IH]; intros i s H0 Hstep; simpl.
  - exists s. by rewrite Nat.add_0_r.
  - destruct (Hstep i s) as (s' & -> & HP); [lia | done |]. simpl.
    destruct (IH (i + 1) s') as (s'' & -> & HP'); [done | |].
    + intros j t Hj. apply Hstep. lia.
    + exists s''. split; [done|]. by replace (i + S n) with (i + 1 + n) by lia.
Qed.

Lemma loop_ext {St} n i (f g : nat -> St -> run St) s :
  (forall j s, i <= j < i + n -> f j s = g j s) -> loop n i f s = loop n i g s.
Proof.
  revert i s. induction n as [|n IH]; intros i s H; simpl; [done|].
  rewrite H by lia. destruct (g i s); simpl; [|done]. apply IH. intros. apply H. lia.
Qed.

Lemma while_inv {St} (P : St -> Prop) (m : St -> nat) fuel cond body s :
  P s -> m s < fuel ->
  (forall s, P s -> cond s = true -> exists s', body s = Done s' /\ P s' /\ m s' < m s) ->
  exists s', while_ fuel cond body s = Done s' /\ P s' /\ cond s' = false.
Proof.
  revert s. induction fuel as [|fuel IH]; intros s HP Hm Hstep; [lia|]. simpl.
  destruct (cond s) eqn:E; [|eauto].
  destruct (Hstep s HP E) as (s' & -> & HP' & Hm'). simpl. apply IH; [done | lia | done].
Qed.

(** ** Interleaved complex data *)

Lemma complex_to_array_length {A} (c : list (A * A)) : length (complex_to_array c) = 2 * length c.
Proof. induction c as [|[x y] c IH]; simpl; lia. Qed.

Lemma pairs_of_complex_to_array {A} (c : list (A * A)) : pairs_of (complex_to_array c) = c.
Proof. induction c as [|[x y] c IH]; simpl; congruence. Qed.

Lemma even_ind2 {A} (P : list A -> Prop) :
  P [] -> (forall x, P [x]) -> (forall x y l, P l -> P (x :: y :: l)) -> forall l, P l.
Proof.
  intros H0 H1 H2. fix IH 1. intros [|x [|y l]]; [exact H0 | apply H1 | apply H2, IH].
Qed.

Lemma complex_to_array_pairs_of {A} (l : list A) :
  Nat.even (length l) = true -> complex_to_array (pairs_of l) = l.
Proof.
  induction l as [|x|x y l IH] using even_ind2; simpl; [done | done |].
  intros H. by rewrite IH.
Qed.

Lemma pairs_of_length {A} (l : list A) : length (pairs_of l) = length l / 2.
Proof.
  induction l as [|x|x y l IH] using even_ind2; [done | done |].
  cbn [pairs_of length]. rewrite IH. lia.
Qed.

Lemma even_double n : Nat.even (2 * n) = true.
Proof. rewrite Nat.even_mul. done. Qed.

Lemma array_to_complex_Done {A} (c : list (A * A)) : array_to_complex (complex_to_array c) = Done c.
Proof.
  unfold array_to_complex. rewrite complex_to_array_length, even_double. simpl. by rewrite pairs_of_complex_to_array.
Qed.

Lemma array_to_complex_even {A} (l : list A) :
  Nat.even (length l) = true -> array_to_complex l = Done (pairs_of l).
Proof. intros H. unfold array_to_complex. by rewrite H. Qed.

Lemma complex_to_array_app {A} (c c' : list (A * A)) :
  complex_to_array (c ++ c') = complex_to_array c ++ complex_to_array c'.
Proof. induction c as [|[x y] c IH]; simpl; congruence. Qed.

Lemma complex_to_array_replicate {A} n (x : A) :
  complex_to_array (replicate n (x, x)) = replicate (2 * n) x.
Proof.
  induction n as [|n IH]; [done|]. replace (2 * S n) with (S (S (2 * n))) by lia. simpl replicate at 1.
  cbn [complex_to_array]. rewrite IH. done.
Qed.

Lemma complex_to_array_lookup {A} (c : list (A * A)) i :
  complex_to_array c !! (2 * i) = fst <$> c !! i /\ complex_to_array c !! (2 * i + 1) = snd <$> c !! i.
Proof.
  revert i. induction c as [|[x y] c IH]; intros i; [done|].
  destruct i as [|i]; [done|].
  replace (2 * S i) with (S (S (2 * i))) by lia. cbn [complex_to_array lookup list_lookup].
  replace (S (S (2 * i)) + 1) with (S (S (2 * i + 1))) by lia. apply IH.
Qed.

Lemma complex_to_array_take {A} (c : list (A * A)) n :
  take (2 * n) (complex_to_array c) = complex_to_array (take n c).
Proof.
  revert n. induction c as [|[x y] c IH]; intros n; [rewrite !take_nil; apply take_nil|].
  destruct n as [|n]; [done|]. replace (2 * S n) with (S (S (2 * n))) by lia.
  cbn [complex_to_array take firstn]. by rewrite IH.
Qed.

Lemma complex_to_array_drop {A} (c : list (A * A)) n :
  drop (2 * n) (complex_to_array c) = complex_to_array (drop n c).
Proof.
  revert n. induction c as [|[x y] c IH]; intros n; [rewrite !drop_nil; apply drop_nil|].
  destruct n as [|n]; [done|]. replace (2 * S n) with (S (S (2 * n))) by lia.
  cbn [complex_to_array drop skipn]. by rewrite IH.
Qed.

Lemma pairs_of_app_even {A} (l l' : list A) :
  Nat.even (length l) = true -> pairs_of (l ++ l') = pairs_of l ++ pairs_of l'.
Proof.
  induction l as [|x|x y l IH] using even_ind2; simpl; [done | done |].
  intros H. by rewrite IH.
Qed.

Lemma exists_complex {A} (l : list A) : Nat.even (length l) = true -> exists c, l = complex_to_array c.
Proof. intros H. exists (pairs_of l). by rewrite complex_to_array_pairs_of. Qed.

(** ** Vectors *)

Lemma vdata_inv {A} (v : dvec A) l :
  vdata v = Done l -> valid_len v = length l /\ length l <= length (elems v) /\ take (length l) (elems v) = l.
Proof.
  unfold vdata. intros H. apply slice_inv in H as (_ & H1 & H2 & H3). rewrite Nat.sub_0_r in *.
  rewrite drop_0 in H2. repeat split; [lia | lia |]. by rewrite H3.
Qed.

Lemma vdata_intro {A} (v : dvec A) l r :
  elems v = l ++ r -> valid_len v = length l -> vdata v = Done l.
Proof.
  intros H1 H2. unfold vdata. rewrite H1, H2, slice_Done; [|lia|rewrite app_length; lia].
  by rewrite Nat.sub_0_r, drop_0, take_app.
Qed.

Lemma vdata_split {A} (v : dvec A) l :
  vdata v = Done l -> exists r, elems v = l ++ r /\ valid_len v = length l.
Proof.
  intros H. apply vdata_inv in H as (H1 & H2 & H3). exists (drop (length l) (elems v)).
  split; [|done]. rewrite <- H3 at 1. by rewrite take_drop.
Qed.

Lemma vdata_wf {A} (v : dvec A) : wf v -> exists l, vdata v = Done l /\ length l = len v.
Proof.
  intros [H _]. unfold vdata, len, alloc_len, s_len in *. fold (elems v) in H.
  rewrite slice_Done by lia. eexists; split; [done|]. rewrite take_length, drop_length. lia.
Qed.

Lemma reals_or_cplx {A} (v : dvec A) : wf v -> (exists l, reals v l) \/ (exists c, cplx v c).
Proof.
  intros H. destruct (vdata_wf v H) as (l & Hl & Hlen). destruct H as [_ H].
  destruct (is_complex v) eqn:E.
  - right. specialize (H eq_refl). rewrite <- Hlen in H. destruct (exists_complex l H) as [c ->]. by exists c.
  - left. by exists l.
Qed.

Lemma set_elems_elems {A} (v : dvec A) l : elems (set_elems v l) = l.
Proof. done. Qed.
