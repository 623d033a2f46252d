From Verif Require Export Proof_PadB.

(** ** zero_interleave_b *)

Lemma interleaved_app {A} (z : A) f p q : interleaved z f (p ++ q) = interleaved z f p ++ interleaved z f q.
Proof. unfold interleaved. apply bind_app. Qed.

Lemma interleave_b_loop {A X} (flat : list X -> list A) w (zero : A) (z' : X) f p :
  0 < w -> 2 <= f ->
  (forall a b, flat (a ++ b) = flat a ++ flat b) ->
  (forall a, length (flat a) = w * length a) ->
  (forall n, flat (replicate n z') = replicate (w * n) zero) ->
  while_ (S (length (replicate (f * (w * length p)) zero))) (fun '(t, i, j) => i <? length t)
    (fun '(t, i, j) =>
       x ← slice (flat p) j (j + w);
       t ← copy_into t i (i + w) x;
       Done (t, i + f * w, j + w)) (replicate (f * (w * length p)) zero, 0, 0)
  = Done (flat (interleaved z' f p), length p * (f * w), length p * w).
Proof.
  intros Hw Hf Happ Hlen Hrep.
  set (n := length p).
  destruct (while_inv (fun '(t, i, j) => exists k, k <= n /\
      t = flat (interleaved z' f (take k p)) ++ replicate (w * ((n - k) * f)) zero /\
      i = k * (f * w) /\ j = k * w)
    (fun '(t, i, j) => n * (f * w) - i)
    (S (length (replicate (f * (w * n)) zero))) (fun '(t, i, j) => i <? length t)
    (fun '(t, i, j) =>
       x ← slice (flat p) j (j + w);
       t ← copy_into t i (i + w) x;
       Done (t, i + f * w, j + w)) (replicate (f * (w * n)) zero, 0, 0)) as ([[t i] j] & -> & (k & Hk & -> & -> & ->) & Hend).
  - exists 0. rewrite take_0. cbn [interleaved mbind list_bind]. split_and!; try lia.
    assert (flat [] = []) as ->. { apply nil_length_inv. rewrite Hlen. simpl. lia. }
    rewrite app_nil_l. f_equal. nia.
  - rewrite replicate_length. nia.
  - intros [[t i] j] (k & Hk & -> & -> & ->) Hc.
    apply Nat.ltb_lt in Hc.
    assert (HL : length (flat (interleaved z' f (take k p))) = k * (f * w)).
    { rewrite Hlen, interleaved_length, take_length by lia. fold n. rewrite Nat.min_l by lia. nia. }
    rewrite app_length, HL, replicate_length in Hc.
    assert (Hkn : k < n) by nia.
    destruct (lookup_lt_is_Some_2 p k Hkn) as [x Hx].
    assert (Hp : p = take k p ++ [x] ++ drop (S k) p).
    { simpl. by rewrite take_drop_middle. }
    assert (Hsl : slice (flat p) (k * w) (k * w + w) = Done (flat [x])).
    { rewrite slice_Done; [|lia|rewrite Hlen; fold n; nia]. f_equal.
      rewrite Hp at 1. rewrite !Happ.
      assert (Hlt : length (flat (take k p)) = k * w). { rewrite Hlen, take_length. fold n. rewrite Nat.min_l by lia. lia. }
      rewrite drop_app_alt by (by rewrite Hlt).
      rewrite take_app_alt; [done|]. rewrite Hlen. simpl. lia. }
    rewrite Hsl, bind_Done.
    assert (Hx1 : length (flat [x]) = w) by (rewrite Hlen; simpl; lia).
    assert (Hrw : w * ((n - k) * f) = w + (w * (f - 1) + w * ((n - S k) * f))).
    { replace (n - k) with (S (n - S k)) by lia. nia. }
    rewrite copy_into_Done; [|lia|..].
    2:{ rewrite app_length, HL, replicate_length. rewrite Hrw; apply Nat.add_le_mono_l, Nat.le_add_r. }
    2:{ lia. }
    rewrite bind_Done. eexists. split; [reflexivity|]. split.
    + exists (S k). split_and!; [lia| |by rewrite Nat.mul_succ_l|by rewrite Nat.mul_succ_l].
      rewrite take_app_alt by (by rewrite HL).
      rewrite <- HL. rewrite drop_add_app by done. rewrite drop_replicate.
      rewrite Hrw. rewrite (Nat.add_comm w), Nat.add_sub.
      rewrite (take_S_r _ _ _ Hx), interleaved_app, Happ, <- app_assoc. f_equal.
      rewrite interleaved_cons. cbn [interleaved mbind list_bind]. rewrite app_nil_r.
      change (x :: zeros z' (f - 1)) with ([x] ++ zeros z' (f - 1)). rewrite Happ. unfold zeros. rewrite Hrep.
      rewrite <- app_assoc, <- replicate_add. done.
    + nia.
  - apply Nat.ltb_ge in Hend. rewrite app_length, Hlen, interleaved_length, take_length, replicate_length in Hend by lia.
    fold n in Hend. rewrite Nat.min_l in Hend by lia.
    assert (k = n). { assert (w * (n - k) * f = 0) by nia. destruct (decide (k = n)); [done|]. exfalso.
      assert (0 < n - k) by lia. assert (0 < w * (n - k)) by nia. nia. }
    subst k. rewrite Nat.sub_diag. simpl. rewrite Nat.mul_0_r. simpl. rewrite app_nil_r.
    rewrite take_ge by (fold n; lia). done.
Qed.

Lemma zero_interleave_b_real {A} (zero : A) b (v : dvec A) p f :
  reals v p -> p <> [] -> 2 <= f -> lends b v (length p * f) ->
  exists v' b', zero_interleave_b zero b v f = Done (v', b') /\ same_meta v v' /\ reals v' (interleaved zero f p).
Proof.
  intros [Hc Hv] Hne Hf Hb. unfold zero_interleave_b. rewrite Hc. cbv zeta.
  destruct (f <=? 1) eqn:E; [lia|].
  pose proof (vdata_inv v p Hv) as (Hl & _ & _). unfold len. rewrite Hl.
  assert (Hp : 0 < length p) by (destruct p; simpl; [done|lia]).
  rewrite (Nat.mul_comm f).
  destruct (borrow_lends zero b v _ Hb) as (T & -> & HT). rewrite bind_Done.
  assert (Hsl : slice (elems v) 0 (length p) = Done p) by (unfold vdata in Hv; rewrite Hl in Hv; done).
  rewrite Hsl, bind_Done.
  destruct (rd_lt T 0) as (x & _ & ->); [rewrite HT; assert (0 < length p * f) by (apply Nat.mul_pos_pos; lia); lia|]. rewrite bind_Done.
  pose proof (interleave_b_loop (fun l => l) 1 zero zero f p ltac:(lia) Hf (fun a b => eq_refl)
    (fun a => eq_sym (Nat.mul_1_l _)) (fun n => f_equal (fun k => replicate k zero) (eq_sym (Nat.mul_1_l n)))) as HL.
  replace (f * (1 * length p)) with (length p * f) in HL by lia. rewrite HL, bind_Done. cbn [fst].
  assert (Hq : length (interleaved zero f p) = length p * f) by (apply interleaved_length; lia).
  destruct (trade_vdata b v _ _ Hb Hq) as (v' & b' & H1 & H2 & H3).
  exists v', b'. destruct (trade b _ (data v)) as [s b2]. apply pair_equal_spec in H1 as [<- <-]. split_and!; try done.
Qed.

Lemma zero_interleave_b_cplx {A} (zero : A) b (v : dvec A) p f :
  cplx v p -> p <> [] -> 2 <= f -> lends b v (2 * (length p * f)) ->
  exists v' b', zero_interleave_b zero b v f = Done (v', b') /\ same_meta v v' /\ cplx v' (interleaved (zero, zero) f p).
Proof.
  intros [Hc Hv] Hne Hf Hb. unfold zero_interleave_b. rewrite Hc. cbv zeta.
  destruct (f <=? 1) eqn:E; [lia|].
  pose proof (vdata_inv v _ Hv) as (Hl & _ & _). unfold len. rewrite Hl, complex_to_array_length.
  rewrite complex_to_array_length in Hl.
  assert (Hp : 0 < length p) by (destruct p; simpl; [done|lia]).
  assert (Hff : f * (2 * length p) = 2 * (length p * f)) by lia. rewrite Hff.
  destruct (borrow_lends zero b v _ Hb) as (T & -> & HT). rewrite bind_Done.
  assert (Hsl : slice (elems v) 0 (2 * length p) = Done (complex_to_array p)) by (unfold vdata in Hv; rewrite Hl in Hv; done).
  rewrite Hsl, bind_Done.
  destruct (rd_lt T 0) as (x & _ & ->); [rewrite HT; assert (0 < length p * f) by (apply Nat.mul_pos_pos; lia); lia|]. rewrite bind_Done.
  pose proof (interleave_b_loop complex_to_array 2 zero (zero, zero) f p ltac:(lia) Hf complex_to_array_app
    complex_to_array_length (fun n => complex_to_array_replicate n zero)) as HL.
  rewrite Hff in HL. rewrite HL, bind_Done. cbn [fst].
  assert (Hq : length (complex_to_array (interleaved (zero, zero) f p)) = 2 * (length p * f)).
  { rewrite complex_to_array_length, interleaved_length by lia. done. }
  destruct (trade_vdata b v _ _ Hb Hq) as (v' & b' & H1 & H2 & H3).
  exists v', b'. destruct (trade b _ (data v)) as [s b2]. apply pair_equal_spec in H1 as [<- <-]. split_and!; try done.
Qed.
