(** execute_sym_pairs_with_range: what it does if the pieces pair up. *)
From stdpp Require Import list_numbers.
From Verif Require Export Proof_Reorg Proof_Map Proof_Chunk Model_Window.

Lemma concat_imap_offset {A} (G : nat -> A -> A) cs (pieces : list (list A)) off :
  (forall i p, pieces !! i = Some p -> i + 1 < length pieces -> length p = cs) ->
  concat (imap (fun i p => imap (fun j => G (off + i * cs + j)) p) pieces) = imap (fun j => G (off + j)) (concat pieces).
Proof.
  revert off. induction pieces as [|p pieces IH]; intros off Hl; [done|].
  rewrite imap_cons. cbn [concat]. rewrite imap_app. f_equal.
  - apply imap_ext. intros j x _. f_equal. lia.
  - destruct pieces as [|q pieces]; [done|].
    assert (Hp : length p = cs) by (apply (Hl 0 p); [done | simpl; lia]).
    rewrite <- (imap_ext (fun j => G (off + cs + j))) by (intros j x _; unfold compose; rewrite Hp; f_equal; lia).
    rewrite <- IH.
    + f_equal. apply imap_ext. intros i x _. unfold compose. apply imap_ext. intros j y _. f_equal. lia.
    + intros i x Hi Hlt. apply (Hl (S i) x); [done | simpl in *; lia].
Qed.

Lemma all_done_Forall2 {T R} (f : T -> run R) (l : list T) (r : list R) : Forall2 (fun x y => f x = Done y) l r -> all_done (map f l) = Done r.
Proof. induction 1 as [|x y l r Hx _ IH]; [done|]. cbn [map all_done]. by rewrite Hx, bind_Done, IH, bind_Done. Qed.

(** The pieces pair up: with [2 k] pieces none is missing. *)
Theorem sym_pairs_spec {A} co s (array : list A) f (G : nat -> A -> A) k cs :
  determine_number_of_chunks (length array) co s = k -> 0 < k ->
  calc_chunk_size (length array) 1 (2 * k) = Done cs -> (2 * k - 1) * cs < length array ->
  (forall j, j < k ->
     let m := 2 * k - 1 - j in
     let a1 := take cs (drop (j * cs) array) in
     let a2 := take cs (drop (m * cs) array) in
     f a1 (j * cs, (j + 1) * cs) a2 (m * cs, if j =? 0 then length array else (m + 1) * cs) =
       Done (imap (fun i => G (j * cs + i)) a1, imap (fun i => G (m * cs + i)) a2)) ->
  execute_sym_pairs co s array 1 f = Done (imap G array).
Proof.
  intros Hk Hk0 Hcs Hlast Hf. unfold execute_sym_pairs. rewrite Hk. remember (2 * k) as K eqn:HK.
  assert (Hne : array <> []) by (intros ->; by apply Nat.nlt_0_r in Hlast).
  destruct (partition_spec array 1 K) as (cs' & pieces & Hp & Hcs0 & _ & Hc & Hc' & [Hm0 Hm] & Hl1 & Hl2 & Hconc & Hlk); [lia|lia|done|].
  rewrite Hcs in Hc. injection Hc as <-. rewrite Hp, !bind_Done.
  assert (Hlen : length pieces = K).
  { destruct (decide (length pieces = K)) as [|Hn]; [done|]. exfalso. assert (length pieces <= K - 1) by lia. nia. }
  assert (Hpl : forall i p, pieces !! i = Some p -> i + 1 < length pieces -> length p = cs).
  { intros i p Hi Hlt. rewrite Hlk in Hi by lia. injection Hi as <-. rewrite take_length, drop_length.
    assert ((i + 1) * cs <= (K - 1) * cs) by (apply Nat.mul_le_mono_r; lia). lia. }
  set (h := fun i (p : list A) => imap (fun j => G (i * cs + j)) p).
  assert (Hres : concat (imap h pieces) = imap G array).
  { rewrite <- Hconc. transitivity (imap (fun j => G (0 + j)) (concat pieces)); [|done].
    rewrite <- (concat_imap_offset G cs pieces 0) by done. done. }
  set (pc := fun i => take cs (drop (i * cs) array)).
  destruct (2 <? K) eqn:E2.
  - destruct (partition_in_ranges_spec (length array) 1 (length pieces) cs Hm0 Hc') as (ranges & Hr & Hrl & Hri).
    rewrite Hr, bind_Done. rewrite Hlen in Hri, Hrl.
    replace (K / 2) with k by (rewrite HK, (Nat.mul_comm 2 k), Nat.div_mul; lia).
    rewrite (all_done_Forall2 _ _ (map (fun j => (h j (pc j), h (K - 1 - j) (pc (K - 1 - j)))) (seq 0 k))).
    2:{ apply Forall2_same_length_lookup. split.
      { rewrite map_length. repeat rewrite zip_with_length. rewrite !rev_length, !take_length, !drop_length, !seq_length. lia. }
      intros j [[c1 r1] [c2 r2]] y. rewrite lookup_zip_with_Some. intros (x1 & x2 & E & H1 & H2). injection E as <- <-.
      apply lookup_zip_with_Some in H1 as (? & ? & E & H11 & H12). injection E as <- <-.
      apply lookup_zip_with_Some in H2 as (? & ? & E & H21 & H22). injection E as <- <-.
      rewrite list_lookup_fmap. intros Hy. apply fmap_Some in Hy as (j' & Hj & ->). apply lookup_seq in Hj as [-> Hj]. change (0 + j) with j.
      rewrite lookup_take in H11 by lia. rewrite (lookup_take ranges) in H12 by lia. rewrite Hlk in H11 by lia. injection H11 as <-.
      rewrite Hri in H12 by lia. injection H12 as <-.
      rewrite (rev_lookup (drop k pieces)) in H21 by (rewrite drop_length; lia). rewrite (rev_lookup (drop k ranges)) in H22 by (rewrite drop_length; lia).
      rewrite drop_length, lookup_drop in H21. rewrite drop_length, lookup_drop in H22.
      replace (k + (length pieces - k - 1 - j)) with (K - 1 - j) in H21 by lia.
      replace (k + (length ranges - k - 1 - j)) with (K - 1 - j) in H22 by lia.
      rewrite Hlk in H21 by lia. injection H21 as <-. rewrite Hri in H22 by lia. injection H22 as <-.
      specialize (Hf j Hj). cbv zeta in Hf.
      replace (j <? K - 1) with true by (symmetry; apply Nat.ltb_lt; lia).
      replace (K - 1 - j <? K - 1) with (negb (j =? 0)) by (destruct j; [simpl; symmetry; apply Nat.ltb_ge; lia | cbn; symmetry; apply Nat.ltb_lt; lia]).
      destruct (j =? 0); exact Hf. }
    rewrite bind_Done, map_length, seq_length.
    rewrite (drop_ge (take k pieces)) by (rewrite take_length; lia). rewrite (drop_ge (rev (drop k pieces))) by (rewrite rev_length, drop_length; lia).
    rewrite !app_nil_r, <- concat_app, <- Hres. do 2 f_equal. rewrite !map_map. cbn [fst snd].
    apply list_eq. intros i. rewrite list_lookup_imap. destruct (decide (i < k)) as [Hi|Hi]; [|destruct (decide (i < K)) as [Hi'|Hi']].
    + rewrite lookup_app_l by (rewrite map_length, seq_length; lia). rewrite list_lookup_fmap, lookup_seq_lt by lia. rewrite Hlk by lia. done.
    + rewrite lookup_app_r by (rewrite map_length, seq_length; lia). rewrite map_length, seq_length.
      rewrite rev_lookup by (rewrite map_length, seq_length; lia). rewrite map_length, seq_length.
      rewrite list_lookup_fmap, lookup_seq_lt by lia. rewrite Hlk by lia. cbn [fmap option_fmap option_map Nat.add].
      replace (K - 1 - (k - 1 - (i - k))) with i by lia. done.
    + rewrite !lookup_ge_None_2; [done | lia |]. rewrite app_length, rev_length, !map_length, seq_length. lia.
  - assert (k = 1) as Hk1 by (apply Nat.ltb_ge in E2; lia).
    destruct pieces as [|c1 [|c2 [|]]]; try (simpl in Hlen; lia).
    pose proof (Hlk 0) as H1. pose proof (Hlk 1) as H2. cbn [length lookup list_lookup] in H1, H2. injection (H1 ltac:(lia)) as Hc1. injection (H2 ltac:(lia)) as Hc2.
    cbn [rd]. unfold rd. cbn [lookup list_lookup]. rewrite !bind_Done.
    assert (L1 : length c1 = cs) by (apply (Hpl 0); [done|simpl; lia]). rewrite L1.
    specialize (Hf 0 ltac:(lia)). cbv zeta in Hf. cbn [Nat.eqb] in Hf. rewrite Nat.sub_0_r, Nat.mul_0_l, Nat.add_0_l in Hf.
    replace (K - 1) with 1 in Hf by lia. rewrite !Nat.mul_1_l, drop_0 in Hf. change (c1 = take cs array) in Hc1. rewrite Nat.add_0_r in Hc2. rewrite <- Hc1, <- Hc2 in Hf. rewrite Hf, bind_Done.
    rewrite <- Hres. cbn [imap]. unfold h. cbn [concat drop]. rewrite !app_nil_r. do 3 f_equal.
    apply imap_ext. intros i x _. unfold compose. f_equal. lia.
Qed.
