From Verif Require Export Proof_CorrV.
From stdpp Require Import list_numbers.
Local Open Scope nat_scope.

Section any.
Context {A : Type} `{Num A}.

Lemma still_lends_trans b1 b2 b3 (v1 v2 v3 : dvec A) : still_lends b1 v1 b2 v2 -> still_lends b2 v2 b3 v3 -> still_lends b1 v1 b3 v3.
Proof. intros H1 H2 n Hn. by apply H2, H1. Qed.
Lemma trade_keeps (b b' : buffer A) target (v v' : dvec A) st : trade b target (Model_Vec.data v) = (st, b') -> Model_Vec.data v' = st -> still_lends b v b' v'.
Proof.
  intros E Ev n Hn. destruct b as [temp| |store]; cbn in E; injection E as <- <-; try done.
  cbn in Hn |- *. unfold alloc_len in *. rewrite Ev. unfold s_len in *. cbn. rewrite !app_length, take_length, !drop_length. lia.
Qed.

Definition conj1 (x : A * A) : A * A := (fst x, nopp (snd x)).
Lemma mirrored_app (c : list (A * A)) : c <> [] -> conj_mirrored c (c ++ rev (map conj1 (tail c))).
Proof.
  intros Hne. destruct c as [|x0 c]; [done|]. cbn [tail]. clear Hne. split_and!.
  - rewrite app_length, rev_length, map_length. cbn [length]. lia.
  - intros k Hk. by rewrite lookup_app_l.
  - intros k x Hk Hx. pose proof (lookup_lt_Some _ _ _ Hx) as Hlt. cbn [length] in *. destruct k as [|k]; [lia|]. change ((x0 :: c) !! S k) with (c !! k) in Hx.
    rewrite lookup_app_r by (cbn [length]; lia). rewrite rev_lookup by (rewrite map_length; cbn [length]; lia). rewrite map_length. cbn [length].
    change (map conj1 c) with (conj1 <$> c). rewrite list_lookup_fmap.
    replace (length c - 1 - (2 * S (length c) - 1 - S k - S (length c))) with k by lia. by rewrite Hx.
Qed.

Theorem mirror_app b (v : dvec A) c : cplx v c -> c <> [] -> lends b v (2 * (2 * length c - 1)) ->
  exists v' b', mirror b v = Done (v', b') /\ cplx v' (c ++ rev (map conj1 (tail c))) /\ same_meta v v' /\ still_lends b v b' v' /\ still_spare b b'.
Proof.
  intros [Hc Hv] Hne Hb. set (n := length c) in *. assert (Hn0 : 1 <= n) by (destruct c; [done | cbn in n; lia]).
  pose proof (reals_len v _ Hv) as Hlen. rewrite complex_to_array_length in Hlen. fold n in Hlen.
  unfold mirror. rewrite Hc. rewrite andb_false_r. cbv zeta. rewrite Hlen, usub_Done, bind_Done by lia.
  destruct (borrow_lends n0 b v (2 * (2 * n) - 2)) as (T & -> & HT). { by replace (2 * (2 * n) - 2) with (2 * (2 * n - 1)) by lia. } rewrite bind_Done.
  destruct (vdata_split v _ Hv) as (rest & He & Hn). rewrite He.
  assert (HlP : length (complex_to_array c) = 2 * n) by apply complex_to_array_length.
  rewrite (slice_Done _ 2 (2 * n)) by (rewrite ?app_length; lia). rewrite bind_Done.
  rewrite (slice_Done _ 0 2) by (rewrite ?app_length; lia).
  rewrite copy_into_Done; [| lia | lia |]. 2:{ rewrite take_length, drop_length, app_length. lia. } rewrite !bind_Done.
  rewrite copy_into_Done; [| lia | rewrite !app_length, take_length, take_length, drop_length, drop_length, app_length; lia | rewrite take_length, drop_0, app_length; lia].
  rewrite bind_Done, usub_Done, bind_Done by lia.
  (* the state after the copies *)
  match goal with |- context [(_, 3, ?t)] => set (T1 := t) end.
  assert (HT1 : exists G, T1 = complex_to_array c ++ G /\ length G = 2 * (n - 1)).
  { exists (drop (2 * n) T). split; [|rewrite drop_length; lia]. unfold T1. rewrite take_0, app_nil_l. rewrite (drop_app_alt (take 2 T)) by (rewrite take_length; lia). rewrite drop_0, Nat.sub_0_r.
    rewrite (take_app_le _ _ 2) by lia. rewrite app_assoc. f_equal. rewrite drop_app_le by lia.
    rewrite take_app_alt by (rewrite drop_length; lia). apply take_drop. }
  clearbody T1. destruct HT1 as (G & -> & HG).
  set (tl := tail c). assert (Hltl : length tl = n - 1). { unfold tl, n. by destruct c; cbn; lia. }
  pose (Inv := fun '(i, j, temp) => exists t G', t <= n - 1 /\ i = 4 * n - 3 - 2 * t /\ j = 3 + 2 * t /\ length G' = 2 * (n - 1 - t) /\
      temp = complex_to_array c ++ G' ++ complex_to_array (rev (map conj1 (take t tl)))).
  destruct (while_inv (St := nat * nat * list A) Inv (fun '(i, j, _) => i) (2 * (2 * n) - 2 + 1) (fun '(i, j, temp) => 2 * n <=? i) (fun '(i, j, temp) =>
        x ← rd (complex_to_array c ++ rest) j;
        temp ← wr temp i (nopp x);
        j' ← usub j 1;
        y ← rd (complex_to_array c ++ rest) j';
        i' ← usub i 1;
        temp ← wr temp i' y;
        i ← usub i 2;
        Done (i, j + 2, temp)) (2 * (2 * n) - 2 - 1, 3, complex_to_array c ++ G)) as ([[i j] temp] & -> & HI & Hcond).
  - exists 0, G. cbn. rewrite app_nil_r. split_and!; (done || lia).
  - lia.
  - intros [[i j] temp] (t & G' & Ht & -> & -> & HG' & ->) Hcond. apply Nat.leb_le in Hcond.
    assert (Htn : t < n - 1) by lia.
    destruct (lookup_lt_is_Some_2 tl t) as [[x y] Hx]; [lia|].
    assert (Hcx : c !! (S t) = Some (x, y)). { unfold tl in Hx. by destruct c. }
    destruct (complex_to_array_lookup c (S t)) as [L1 L2]. rewrite Hcx in L1, L2. cbn in L1, L2.
    assert (R1 : rd (complex_to_array c ++ rest) (3 + 2 * t) = Done y).
    { apply rd_Done. rewrite lookup_app_l by lia. rewrite <- L2. f_equal. lia. }
    assert (R2 : rd (complex_to_array c ++ rest) (3 + 2 * t - 1) = Done x).
    { apply rd_Done. rewrite lookup_app_l by lia. rewrite <- L1. f_equal. lia. }
    rewrite R1, bind_Done. set (T0 := complex_to_array (rev _)).
    assert (HT0 : length T0 = 2 * t). { unfold T0. rewrite complex_to_array_length, rev_length, map_length, take_length. lia. }
    rewrite wr_Done by (rewrite !app_length; lia). rewrite bind_Done, (usub_Done (3 + 2 * t) 1), bind_Done by lia. rewrite R2, bind_Done, (usub_Done _ 1), bind_Done by lia.
    rewrite wr_Done by (rewrite insert_length, !app_length; lia). rewrite bind_Done, usub_Done, bind_Done by lia.
    eexists. split; [reflexivity|]. split; [|lia].
    (* the last two elements of G' are replaced *)
    assert (HG2 : exists G2 a bb, G' = G2 ++ [a; bb] /\ length G2 = 2 * (n - 1 - (t + 1))).
    { exists (take (2 * (n - 1 - (t + 1))) G'). remember (drop (2 * (n - 1 - (t + 1))) G') as D eqn:ED.
      assert (HD : length D = 2) by (subst D; rewrite drop_length; lia).
      destruct D as [|a [|bb [|]]]; try done. exists a, bb. split; [rewrite ED; symmetry; apply take_drop | rewrite take_length; lia]. }
    destruct HG2 as (G2 & a & bb & -> & HG2). exists (t + 1), G2. split_and!; try lia.
    replace (complex_to_array c ++ (G2 ++ [a; bb]) ++ T0) with ((complex_to_array c ++ G2) ++ a :: bb :: T0) by (rewrite <- !app_assoc; done).
    assert (HpG : length (complex_to_array c ++ G2) = 4 * n - 4 - 2 * t) by (rewrite app_length; lia).
    replace (4 * n - 3 - 2 * t) with (length (complex_to_array c ++ G2) + 1) by lia. rewrite insert_app_r.
    replace (length (complex_to_array c ++ G2) + 1 - 1) with (length (complex_to_array c ++ G2) + 0) by lia. rewrite insert_app_r. cbn [insert list_insert].
    rewrite <- app_assoc. do 2 f_equal. replace (t + 1) with (S t) by lia. rewrite (take_S_r _ _ _ Hx). rewrite map_app, rev_app_distr. done.
  - rewrite bind_Done. destruct HI as (t & G' & Ht & -> & -> & HG' & ->). apply Nat.leb_gt in Hcond. assert (t = n - 1) as -> by lia.
    rewrite take_ge by lia. assert (G' = []) as -> by (destruct G'; [done | cbn in HG'; lia]). rewrite app_nil_l.
    rewrite <- complex_to_array_app. set (R := complex_to_array _).
    assert (HR : length R = 2 * (2 * n - 1)). { unfold R. rewrite complex_to_array_length, app_length, rev_length, map_length. fold n. lia. }
    destruct (trade_lends b v R) as (st & b' & r & Et & Es & Ek). { by rewrite HR. } rewrite Et.
    eexists _, _. split; [reflexivity|]. split_and!; try done.
    + split; [done|]. apply vdata_intro with r; [done|]. fold R. rewrite HR. cbn. lia.
    + by eapply trade_keeps.
    + by eapply trade_spare.
Qed.
End any.
