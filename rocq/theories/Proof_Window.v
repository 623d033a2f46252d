From Verif Require Export Proof_Pairs Spec_Window.

Lemma threads_eq s n : determine_number_of_chunks n Medium s = threads s n.
Proof. unfold determine_number_of_chunks, threads. destruct (core_limit s =? 1) eqn:E; [by apply Nat.eqb_eq|done]. Qed.

Lemma rev_imap {A B} (f : nat -> A -> B) l : rev (imap f (rev l)) = imap (fun i => f (length l - 1 - i)) l.
Proof.
  apply list_eq. intros i. rewrite list_lookup_imap. destruct (decide (i < length l)) as [Hi|Hi].
  - rewrite rev_lookup by (rewrite imap_length, rev_length; done). rewrite imap_length, rev_length, list_lookup_imap.
    rewrite rev_lookup by lia. replace (length l - 1 - (length l - 1 - i)) with i by lia. by destruct (l !! i).
  - rewrite !lookup_ge_None_2; [done | lia |]. rewrite rev_length, imap_length, rev_length. lia.
Qed.

Section window.
Context {TT : Type} (mul : TT -> TT -> TT).

Lemma window_pairs_spec (w : nat -> TT) j a1 r2 : length r2 <= length a1 ->
  window_pairs mul w j a1 r2 = (imap (fun i x => mul x (w (j + i))) a1, imap (fun i x => mul x (w (j + i))) r2).
Proof.
  assert (Hsh : forall j (l : list TT), imap (fun i x => mul x (w (j + 1 + i))) l = imap ((fun i x => mul x (w (j + i))) ∘ S) l).
  { intros j' l. apply imap_ext. intros i z _. unfold compose. do 2 f_equal. lia. }
  revert j r2. induction a1 as [|x a1 IH]; intros j r2 Hl.
  - destruct r2; [done|simpl in Hl; lia].
  - destruct r2 as [|y r2]; cbn [window_pairs]; rewrite IH by (simpl in *; lia); rewrite !imap_cons, Nat.add_0_r, !Hsh; done.
Qed.

Lemma window_closure_spec (w : nat -> TT) a1 r1 a2 r2 : length a2 <= length a1 ->
  window_closure mul w a1 r1 a2 r2 =
  Done (imap (fun i x => mul x (w (fst r1 + i))) a1, imap (fun i x => mul x (w (fst r1 + (length a2 - 1 - i)))) a2).
Proof.
  intros Hl. unfold window_closure. rewrite (proj2 (Nat.leb_le _ _) Hl). cbn [assert_]. rewrite bind_Done.
  rewrite window_pairs_spec by (by rewrite rev_length). by rewrite rev_imap.
Qed.

Lemma piece_size s n : pairs_up s n -> exists k cs, threads s n = k /\ 0 < k /\ calc_chunk_size n 1 (2 * k) = Done cs /\ (2 * k - 1) * cs < n /\
  ((k = 1 /\ 2 * cs <= n + 1 /\ n <= 2 * cs) \/ n = 2 * k * cs) /\ 0 < cs.
Proof.
  intros [[Ht Hn]|(Ht & Hn & Hm)].
  - exists 1, ((n + 1) / 2). pose proof (Nat.div_mod (n + 1) 2). pose proof (Nat.mod_upper_bound (n + 1) 2).
    split_and!; [done | lia | | lia | lia | lia].
    apply calc_chunk_size_unique; [lia | lia | apply Nat.mod_1_r | lia |]. intros c _ Hc. lia.
  - set (k := threads s n) in *. clearbody k. pose proof (Nat.div_mod n (2 * k)) as E. rewrite Hm in E. set (q := n / (2 * k)) in *. clearbody q.
    exists k, q. split_and!; [done | done | | nia | lia | nia].
    apply calc_chunk_size_unique; [lia | lia | apply Nat.mod_1_r | nia |]. intros c _ Hc. nia.
Qed.

Theorem multiply_window_symmetric (fun_ : nat -> nat -> TT) s sched (l : list TT) : pairs_up s (length l) ->
  multiply_window_points mul true fun_ s sched (length l) l =
  Done (imap (fun i x => mul x (fun_ (Nat.min i (length l - 1 - i)) (length l))) l).
Proof.
  intros Hp. destruct (piece_size _ _ Hp) as (k & cs & Hk & Hk0 & Hc & Hl & Hcase & Hcs). unfold multiply_window_points. cbn [negb].
  apply (sym_pairs_spec Medium s l _ _ k cs); [by rewrite threads_eq | done | done | done |].
  intros j Hj. cbv zeta. set (m := 2 * k - 1 - j).
  assert (Hm : (j + 1) * cs <= m * cs) by (apply Nat.mul_le_mono_r; lia).
  assert (Hm' : m * cs <= (2 * k - 1) * cs) by (apply Nat.mul_le_mono_r; lia).
  assert (L1 : length (take cs (drop (j * cs) l)) = cs) by (rewrite take_length, drop_length; nia).
  assert (L2 : length (take cs (drop (m * cs) l)) = Nat.min cs (length l - m * cs)) by (by rewrite take_length, drop_length).
  rewrite window_closure_spec by lia. cbn [fst]. f_equal. f_equal.
  - apply imap_ext. intros i x Hi. apply lookup_lt_Some in Hi. rewrite L1 in Hi. do 2 f_equal.
    destruct Hcase as [(-> & H1 & H2)| ->]; [assert (j = 0) as -> by lia; lia | nia].
  - apply imap_ext. intros i x Hi. apply lookup_lt_Some in Hi. rewrite L2 in Hi |- *. do 2 f_equal.
    destruct Hcase as [(-> & H1 & H2)| H].
    + assert (j = 0) as -> by lia. subst m. simpl in *. lia.
    + assert (m * cs + (j + 1) * cs = 2 * k * cs) by (subst m; nia). nia.
Qed.

Theorem multiply_window_plain (fun_ : nat -> nat -> TT) s sched (l : list TT) : l <> [] \/ no_threads_for_nothing Medium s ->
  multiply_window_points mul false fun_ s sched (length l) l = Done (imap (fun i x => mul x (fun_ i (length l))) l).
Proof.
  intros Hs. unfold multiply_window_points. cbn [negb].
  assert (Hst : forall off c, run_steps (elem_steps (fun i x => Done (mul x (fun_ (fst (off, off + length c) + i) (length l)))) (length c)) c =
                 Done (imap (fun i x => mul x (fun_ (off + i) (length l))) c)).
  { intros off c. apply elem_steps_spec. done. }
  destruct l as [|y l].
  - destruct Hs as [|Hs]; [done|]. unfold execute_with_range. cbn [length]. unfold no_threads_for_nothing in Hs.
    destruct (1 <? determine_number_of_chunks 0 Medium s) eqn:E; [apply Nat.ltb_lt in E; lia|]. apply (Hst 0 []).
  - rewrite (execute_with_range_any Medium s sched _ 1 _ (fun off c => Done (imap (fun i x => mul x (fun_ (off + i) (length (y :: l)))) c))).
    + done.
    + lia.
    + done.
    + apply (splittable_imap 1 (fun i x => mul x (fun_ i (length (y :: l))))).
    + intros off c. apply Hst.
Qed.

(** Too few points: the second piece is missing. *)
Theorem multiply_window_short (fun_ : nat -> nat -> TT) s sched p (l : list TT) : length l < 2 ->
  multiply_window_points mul true fun_ s sched p l = Panicked \/ 2 <= threads s (length l).
Proof.
  intros Hl. destruct (decide (2 <= threads s (length l))) as [|Ht]; [by right|left].
  unfold multiply_window_points, execute_sym_pairs. cbn [negb]. rewrite threads_eq. set (k := threads _ _) in *. clearbody k.
  destruct (2 <? 2 * k) eqn:E; [apply Nat.ltb_lt in E; lia|].
  destruct k as [|[|]]; [done | | lia]. destruct l as [|x [|]]; [done | done | simpl in Hl; lia].
Qed.
End window.

Section vectors.
Context {A : Type} `{Num A} `{Flt A} `{Rem A} `{Trig A}.

Lemma points_reals (v : dvec A) l : reals v l -> points v = length l.
Proof. intros [Hc Hv]. unfold points. rewrite Hc, Nat.div_1_r. by apply (reals_len v). Qed.
Lemma points_cplx (v : dvec A) c : cplx v c -> points v = length c.
Proof.
  intros [Hc Hv]. unfold points. rewrite Hc. apply reals_len in Hv. unfold len in Hv. rewrite Hv, complex_to_array_length.
  by rewrite Nat.mul_comm, Nat.div_mul.
Qed.

Lemma on_reals_spec f (v : dvec A) l l' : reals v l -> f (length l) l = Done l' -> length l' = length l ->
  exists v', on_reals f v = Done v' /\ reals v' l' /\ same_meta v v' /\ same_rest v v'.
Proof.
  intros Hr Hf Hl. rewrite <- (points_reals v l Hr) in Hf. destruct Hr as [Hc Hv]. unfold on_reals. rewrite Hv, bind_Done, Hf, bind_Done.
  destruct (vdata_split v l Hv) as (rest & He & Hn). rewrite He, splice_pre by done. rewrite bind_Done.
  destruct (set_elems_after v l l' rest He Hn Hl) as (? & ? & ?). eexists. split; [done|]. done.
Qed.
Lemma on_points_spec f (v : dvec A) c c' : cplx v c -> f (length c) c = Done c' -> length c' = length c ->
  exists v', on_points f v = Done v' /\ cplx v' c' /\ same_meta v v' /\ same_rest v v'.
Proof.
  intros Hr Hf Hl. rewrite <- (points_cplx v c Hr) in Hf. destruct Hr as [Hc Hv]. unfold on_points. rewrite Hv, bind_Done.
  rewrite array_to_complex_Done, bind_Done, Hf, bind_Done.
  destruct (vdata_split v _ Hv) as (rest & He & Hn). assert (Hll : length (complex_to_array c') = length (complex_to_array c)) by (rewrite !complex_to_array_length; lia).
  rewrite He, splice_pre by done. rewrite bind_Done.
  destruct (set_elems_after v _ _ rest He Hn Hll) as (? & ? & ?). eexists. split; [done|]. done.
Qed.

Lemma windowed_imap {T} (sc : T -> A -> T) (w : nat -> nat -> A) (l : list T) : windowed sc w l (imap (fun i x => sc x (w i (length l))) l).
Proof.
  split; [apply imap_length|]. intros i x Hi. rewrite list_lookup_imap, Hi. done.
Qed.

Definition used_factor (b : bool) (w : nat -> nat -> A) : nat -> nat -> A := if b then folded w else w.

(** [g] is the change of the weight: nothing, or the reciprocal *)
Lemma apply_any (w : window A) (g : A -> A) s sched (v : dvec A) :
  (w_symmetric w = true -> pairs_up s (points v)) -> (w_symmetric w = false -> 0 < points v \/ no_threads_for_nothing Medium s) ->
  applies_factors (fun i n => g (used_factor (w_symmetric w) (w_fun w) i n))
    (fun v => if is_complex v then on_points (multiply_window_points cmul (w_symmetric w) (fun i p => (g (w_fun w i p), n0)) s sched) v
              else on_reals (multiply_window_points nmul (w_symmetric w) (fun i p => g (w_fun w i p)) s sched) v) v.
Proof.
  intros Hs Hn. split.
  - intros l Hr. pose proof (points_reals v l Hr) as Hp. rewrite Hp in Hs, Hn. rewrite (proj1 Hr).
    assert (Hm : multiply_window_points nmul (w_symmetric w) (fun i p => g (w_fun w i p)) s sched (length l) l =
                 Done (imap (fun i x => (x * g (used_factor (w_symmetric w) (w_fun w) i (length l)))%num) l)).
    { destruct (w_symmetric w).
      - rewrite multiply_window_symmetric by auto. done.
      - rewrite multiply_window_plain; [done|]. destruct (Hn eq_refl); [left; by destruct l; [simpl in *; lia|] | by right]. }
    destruct (on_reals_spec _ v l _ Hr Hm (imap_length _ _)) as (v' & -> & ? & ? & ?).
    exists v'. eexists. split_and!; [done | done | apply (windowed_imap nmul (fun i n => g (used_factor (w_symmetric w) (w_fun w) i n))) | done | done].
  - intros c Hr. pose proof (points_cplx v c Hr) as Hp. rewrite Hp in Hs, Hn. rewrite (proj1 Hr).
    assert (Hm : multiply_window_points cmul (w_symmetric w) (fun i p => (g (w_fun w i p), n0)) s sched (length c) c =
                 Done (imap (fun i x => complex_product x (g (used_factor (w_symmetric w) (w_fun w) i (length c)), n0)) c)).
    { destruct (w_symmetric w).
      - rewrite multiply_window_symmetric by auto. done.
      - rewrite multiply_window_plain; [done|]. destruct (Hn eq_refl); [left; by destruct c; [simpl in *; lia|] | by right]. }
    destruct (on_points_spec _ v c _ Hr Hm (imap_length _ _)) as (v' & -> & ? & ? & ?).
    exists v'. eexists. split_and!; [done | done | apply (windowed_imap (fun x y => complex_product x (y, n0)) (fun i n => g (used_factor (w_symmetric w) (w_fun w) i n))) | done | done].
Qed.

Lemma applies_factors_ext (f g : nat -> nat -> A) h (v : dvec A) : (forall i, i < points v -> f i (points v) = g i (points v)) ->
  applies_factors f h v -> applies_factors g h v.
Proof.
  intros Hfg [H1' H2']. split.
  - intros l Hr. destruct (H1' l Hr) as (v' & l' & ? & ? & [Hl Hw] & ? & ?). exists v', l'. split_and!; try done. split; [done|].
    intros i x Hi. rewrite (Hw i x Hi). pose proof (lookup_lt_Some _ _ _ Hi). rewrite <- (points_reals v l Hr) in *. by rewrite Hfg.
  - intros l Hr. destruct (H2' l Hr) as (v' & l' & ? & ? & [Hl Hw] & ? & ?). exists v', l'. split_and!; try done. split; [done|].
    intros i x Hi. rewrite (Hw i x Hi). pose proof (lookup_lt_Some _ _ _ Hi). rewrite <- (points_cplx v l Hr) in *. by rewrite Hfg.
Qed.

Lemma folded_mirrored (w : nat -> nat -> A) n i : mirrored w n -> i < n -> folded w i n = w i n.
Proof.
  intros Hm Hi. unfold folded. destruct (Nat.min_spec i (n - 1 - i)) as [[_ ->]|[_ ->]]; [done|]. by rewrite (Hm i Hi).
Qed.

Theorem apply_window_spec (w : window A) s sched (v : dvec A) :
  (w_symmetric w = true -> mirrored (w_fun w) (points v) /\ pairs_up s (points v)) ->
  (w_symmetric w = false -> 0 < points v \/ no_threads_for_nothing Medium s) ->
  applies_factors (w_fun w) (apply_window w s sched) v.
Proof.
  intros Hs Hn. apply (applies_factors_ext (used_factor (w_symmetric w) (w_fun w))).
  - intros i Hi. unfold used_factor. destruct (w_symmetric w); [|done]. apply folded_mirrored; [by apply Hs | done].
  - apply (apply_any w (fun x => x)); [apply Hs | done].
Qed.
Theorem unapply_window_spec (w : window A) s sched (v : dvec A) :
  (w_symmetric w = true -> mirrored (w_fun w) (points v) /\ pairs_up s (points v)) ->
  (w_symmetric w = false -> 0 < points v \/ no_threads_for_nothing Medium s) ->
  applies_factors (fun i n => n1 / w_fun w i n)%num (unapply_window w s sched) v.
Proof.
  intros Hs Hn. apply (applies_factors_ext (fun i n => n1 / used_factor (w_symmetric w) (w_fun w) i n)%num).
  - intros i Hi. unfold used_factor. destruct (w_symmetric w); [|done]. rewrite folded_mirrored; [done | by apply Hs | done].
  - apply (apply_any w (fun x => n1 / x)%num); [apply Hs | done].
Qed.
Theorem apply_window_folded (w : window A) s sched (v : dvec A) : w_symmetric w = true -> pairs_up s (points v) ->
  applies_factors (folded (w_fun w)) (apply_window w s sched) v.
Proof.
  intros Hw Hp. apply (applies_factors_ext (used_factor (w_symmetric w) (w_fun w))).
  - intros i _. by rewrite Hw.
  - apply (apply_any w (fun x => x)); [done | congruence].
Qed.

Theorem apply_window_short (w : window A) s sched (v : dvec A) : w_symmetric w = true -> wf v -> points v < 2 -> threads s (points v) <= 1 ->
  apply_window w s sched v = Panicked /\ unapply_window w s sched v = Panicked.
Proof.
  intros Hw Hwf Hp Ht. unfold apply_window, unapply_window. rewrite Hw.
  destruct (reals_or_cplx v Hwf) as [[l Hr]|[c Hr]].
  - rewrite (proj1 Hr). pose proof (points_reals v l Hr) as E. rewrite E in *. unfold on_reals. rewrite (proj2 Hr), !bind_Done.
    split; [destruct (multiply_window_short nmul (w_fun w) s sched (points v) l Hp) as [->|]; [done|lia]|].
    destruct (multiply_window_short nmul (fun i p => n1 / w_fun w i p)%num s sched (points v) l Hp) as [->|]; [done|lia].
  - rewrite (proj1 Hr). pose proof (points_cplx v c Hr) as E. rewrite E in *. unfold on_points. rewrite (proj2 Hr), !bind_Done.
    rewrite array_to_complex_Done, !bind_Done.
    split; [destruct (multiply_window_short cmul (fun i p => (w_fun w i p, n0)) s sched (points v) c Hp) as [->|]; [done|lia]|].
    destruct (multiply_window_short cmul (fun i p => (n1 / w_fun w i p, n0)%num) s sched (points v) c Hp) as [->|]; [done|lia].
Qed.
End vectors.
