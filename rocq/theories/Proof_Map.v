From Verif Require Export Proof_Dot.

(** The values of a list combined from the left to the right *)
Definition combine_all {R} (g : R -> R -> R) (l : list R) : result R :=
  match l with [] => Err InputMustNotBeEmpty | x :: l => Ok (foldl g x l) end.

Section map.
Context {A : Type} `{Num A}.

Lemma execute_with_range_small s sched (a : list A) w f :
  execute_with_range Small s sched a w f = run_steps (f (0, length a) (length a)) a.
Proof. unfold execute_with_range. cbv zeta. by rewrite small_single. Qed.

Theorem map_inplace_spec (f : A -> nat -> A) s sched (v : dvec A) l : reals v l ->
  exists v', map_inplace f s sched v = Done v' /\ reals v' (imap (fun i x => f x i) l) /\ same_meta v v' /\ alloc_len v' = alloc_len v.
Proof.
  intros [Hc Hv]. destruct (vdata_split v l Hv) as (rest & He & Hn). unfold map_inplace. rewrite Hc, execute_with_range_small.
  rewrite (elem_steps_spec _ (fun i x => f x i)) by done. rewrite bind_Done. eexists. split; [done|].
  rewrite He, imap_app. split_and!; [split; [done|] | done |].
  - apply (vdata_intro _ _ (imap ((fun i x => f x i) ∘ Nat.add (length l)) rest)); [done|]. cbn [set_elems valid_len]. by rewrite imap_length.
  - unfold alloc_len, s_len. fold (elems v). rewrite He. cbn. rewrite !app_length, !imap_length. done.
Qed.

Lemma map_inplace_complex_input (f : A -> nat -> A) s sched (v : dvec A) : is_complex v = true ->
  map_inplace f s sched v = Done (mark_vector_as_invalid v).
Proof. intros Hc. unfold map_inplace. by rewrite Hc. Qed.

Lemma imap_pairs_blockwise (f : A * A -> nat -> A * A) :
  blockwise 2 (fun off l => complex_to_array (imap (fun i x => f x (off / 2 + i)) (pairs_of l))).
Proof.
  split; [done|]. intros off b l Hb. rewrite pairs_of_app_even by (by rewrite Hb). rewrite imap_app, complex_to_array_app. do 2 f_equal.
  rewrite pairs_of_length, Hb. change (2 / 2) with 1. apply imap_ext. intros i x _. unfold compose. f_equal.
  replace (off + 2) with (off + 1 * 2) by lia. rewrite Nat.div_add by lia. lia.
Qed.

Theorem map_inplace_complex_spec (f : A * A -> nat -> A * A) s sched (v : dvec A) c : cplx v c -> whole_points v ->
  exists v', map_inplace_complex f s sched v = Done v' /\ cplx v' (imap (fun i x => f x i) c) /\ same_meta v v' /\ alloc_len v' = alloc_len v.
Proof.
  intros [Hc Hv] Hw. destruct (vdata_split v _ Hv) as (rest & He & Hn). unfold map_inplace_complex. rewrite Hc. cbn [negb].
  rewrite execute_with_range_small.
  assert (Hrev : Nat.even (length rest) = true).
  { specialize (Hw Hc). unfold alloc_len, s_len in Hw. fold (elems v) in Hw. rewrite He, app_length, complex_to_array_length in Hw.
    by rewrite Nat.even_add, even_double in Hw; destruct (Nat.even (length rest)). }
  destruct (exists_complex rest Hrev) as [cr ->].
  rewrite (block_steps_spec 2 _ _ (fun off l => complex_to_array (imap (fun i x => f x (off / 2 + i)) (pairs_of l))) 0);
    [|lia|apply imap_pairs_blockwise| |].
  - rewrite He, app_length, !complex_to_array_length.
    assert (Hmod : (2 * length c + 2 * length cr) mod 2 =? 0 = true).
    { apply Nat.eqb_eq. replace (2 * length c + 2 * length cr) with ((length c + length cr) * 2) by lia. apply Nat.mod_mul. lia. }
    rewrite Hmod, bind_Done. rewrite <- complex_to_array_app, pairs_of_complex_to_array, imap_app, complex_to_array_app.
    change (0 / 2) with 0. eexists. split; [done|]. split_and!; [split; [done|] | done |].
    + eapply vdata_intro; [cbn [set_elems elems]; reflexivity|]. transitivity (valid_len v); [done|]. rewrite Hn.
      rewrite !complex_to_array_length, imap_length. done.
    + unfold alloc_len, s_len. fold (elems v). rewrite He. cbn. rewrite !app_length, !complex_to_array_length, !imap_length. done.
  - intros Hm. by apply Nat.eqb_eq.
  - intros _ i b _ Hb. destruct b as [|x [|y [|]]]; try done. unfold on_pairs. cbn [pairs_of map imap complex_to_array fst].
    change (0 / 2) with 0. cbn [Nat.add]. rewrite Nat.div_mul by lia. rewrite Nat.add_0_r. split; [done|]. by destruct (f (x, y) i).
Qed.

Lemma aggregate_worker_spec {P R} (f : P -> nat -> R) (g : R -> R -> R) (l : list P) s :
  aggregate_worker f g s l = match imap (fun i x => f x (s + i)) l with [] => None | x :: r => Some (foldl g x r) end.
Proof.
  destruct l as [|x l]; [done|]. unfold aggregate_worker. cbn [foldl imap]. rewrite Nat.add_0_r.
  generalize (f x s). intros y. revert y s. induction l as [|z l IH]; intros y s; [done|].
  cbn [foldl imap]. unfold compose at 1. rewrite IH. unfold compose.
  replace (s + 1) with (s + 1) by lia. do 2 f_equal. apply imap_ext. intros i w _. f_equal. lia.
Qed.

Lemma map_chunks_small {R} s order (a : list A) w (f : list A -> nat * nat -> run R) :
  map_on_array_chunks Small s order a w f = (r ← f a (0, length a); Done [r]).
Proof. unfold map_on_array_chunks. cbv zeta. by rewrite small_single. Qed.

(** What the operation computes: the whole storage is aggregated *)
Theorem map_aggregate_storage {R} (f : A -> nat -> R) (g : R -> R -> R) s order (v : dvec A) : is_complex v = false ->
  map_aggregate f g s order v = Done (combine_all g (imap (fun i x => f x i) (elems v))).
Proof.
  intros Hc. unfold map_aggregate. rewrite Hc. destruct (elems v) as [|x l] eqn:E; [done|]. rewrite <- E.
  assert (Hn : (length (elems v) =? 0) = false) by (by rewrite E). rewrite Hn, map_chunks_small. unfold real_piece. cbn [fst].
  rewrite !bind_Done, aggregate_worker_spec. cbn [Nat.add]. rewrite E. cbn [imap]. done.
Qed.

Theorem map_aggregate_complex_storage {R} (f : A * A -> nat -> R) (g : R -> R -> R) s order (v : dvec A) c : is_complex v = true ->
  elems v = complex_to_array c ->
  map_aggregate_complex f g s order v = Done (combine_all g (imap (fun i x => f x i) c)).
Proof.
  intros Hc He. unfold map_aggregate_complex. rewrite Hc, He. cbn [negb]. destruct c as [|[x y] c]; [done|].
  cbn [complex_to_array length Nat.eqb]. change (x :: y :: complex_to_array c) with (complex_to_array ((x, y) :: c)).
  rewrite map_chunks_small. unfold complex_piece. rewrite array_to_complex_Done. cbn [fst]. rewrite !bind_Done.
  change (0 / 2) with 0. rewrite aggregate_worker_spec. done.
Qed.

Lemma full_storage (v : dvec A) l : vdata v = Done l -> alloc_len v = len v -> elems v = l.
Proof.
  intros Hv Ha. destruct (vdata_split v l Hv) as (rest & He & Hn). unfold alloc_len, s_len, len in Ha. fold (elems v) in Ha.
  rewrite He, app_length, Hn in Ha. assert (rest = []) as -> by (apply nil_length_inv; lia). by rewrite app_nil_r in He.
Qed.
End map.
