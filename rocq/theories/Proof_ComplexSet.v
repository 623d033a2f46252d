(** Setters, [to_complex], [conj] and the complex exponential. *)
From Verif Require Export Proof_ComplexOps.

Section set.
Context {A : Type} `{Num A} `{Flt A}.

Lemma resized_storage (v : dvec A) n : s_kind (data v) = KVec ->
  exists st r, try_resize n0 (data v) n = (st, r) /\ length (s_elems st) = n /\ s_kind st = KVec.
Proof. intros Hk. unfold try_resize. rewrite Hk. eexists _, _. split; [reflexivity|]. simpl. by rewrite resized_length. Qed.

Lemma vdata_full (v : dvec A) l : elems v = l -> valid_len v = length l -> vdata v = Done l.
Proof. intros He Hn. unfold vdata. rewrite He, Hn, slice_Done by lia. rewrite drop_0, take_ge by lia. done. Qed.

(** Filling a list pair by pair *)
Lemma fill_pairs (g : nat -> run (A * A)) (c : list (A * A)) (l : list A) :
  length l = 2 * length c -> (forall j x, c !! j = Some x -> g j = Done x) ->
  loop (length c) 0 (fun j l => x ← g j; l ← wr l (2 * j) (fst x); wr l (2 * j + 1) (snd x)) l = Done (complex_to_array c).
Proof.
  intros Hl Hg.
  destruct (loop_inv (fun j t => t = take (2 * j) (complex_to_array c) ++ drop (2 * j) l) (length c) 0
    (fun j l => x ← g j; l ← wr l (2 * j) (fst x); wr l (2 * j + 1) (snd x)) l) as (t & Ht & ->).
  - done.
  - intros j t [_ Hj] ->. simpl in Hj. destruct (lookup_lt_is_Some_2 c j Hj) as [x E]. rewrite (Hg j x E), bind_Done.
    destruct (complex_to_array_lookup c j) as [L1 L2]. rewrite E in L1, L2. pose proof (complex_to_array_length c) as Hcl.
    rewrite (wr_take l (complex_to_array c) (2 * j) (fst x)); [|lia|done|lia]. rewrite bind_Done.
    rewrite (wr_take l (complex_to_array c) (2 * j + 1) (snd x)); [|lia|done|lia].
    eexists. split; [reflexivity|]. by replace (2 * j + 1 + 1) with (2 * (j + 1)) by lia.
  - rewrite Ht. simpl plus. rewrite take_ge, drop_ge, app_nil_r by (rewrite ?complex_to_array_length; lia). done.
Qed.

Lemma loop_ext' {St} n : forall i (f g : nat -> St -> run St) (s : St), (forall j s, f j s = g j s) -> loop n i f s = loop n i g s.
Proof.
  induction n as [|n IH]; intros i f g s Hfg; [done|]. cbn [loop]. rewrite Hfg. destruct (g i s); [|done]. rewrite !bind_Done. by apply IH.
Qed.

Theorem set_real_imag_spec (v re im : dvec A) lr li : s_kind (data v) = KVec -> vdata re = Done lr -> vdata im = Done li -> length lr = length li ->
  exists v', set_real_imag v re im = Done (v', Ok tt) /\ vdata v' = Done (complex_to_array (zip lr li)) /\ same_meta v v' /\
    len v' = 2 * length lr /\ alloc_len v' = len v'.
Proof.
  intros Hk Hr Hi Hl. destruct (vdata_inv _ _ Hr) as (Lr & _). destruct (vdata_inv _ _ Hi) as (Li & _).
  unfold set_real_imag, len. rewrite Lr, Li, Hl, Nat.eqb_refl. simpl negb. cbv iota.
  destruct (resized_storage v (length li + length li) Hk) as (st & r & -> & Hst & _). rewrite Hr, bind_Done, Hi, bind_Done.
  set (w := set_valid_len _ _). assert (Hw : elems w = s_elems st) by done.
  rewrite (slice_Done (elems w)) by (rewrite ?Hw; lia). rewrite bind_Done.
  assert (Hll : length li + length li = 2 * length (zip lr li)) by (rewrite zip_with_length; lia).
  generalize (loop_pairs (fun i l => if i mod 2 =? 0 then x ← rd lr (i / 2); wr l i x else x ← rd li (i / 2); wr l i x) (length (zip lr li)) 0 (elems w)).
  rewrite <- Hll. change (2 * 0) with 0. intros ->.
  rewrite (loop_ext' _ 0 _ (fun j l => x ← (a ← rd lr j; b ← rd li j; Done (a, b)); l ← wr l (2 * j) (fst x); wr l (2 * j + 1) (snd x))).
  - rewrite (fill_pairs _ (zip lr li)).
    + rewrite bind_Done. eexists. split; [reflexivity|]. split.
      { apply vdata_full; [done|]. simpl. rewrite complex_to_array_length, zip_with_length. lia. }
      split_and!; try done; simpl; try lia. unfold alloc_len, s_len. simpl. rewrite complex_to_array_length, zip_with_length. lia.
    + rewrite Hw, Hst, zip_with_length. lia.
    + intros j [a b] E. apply lookup_zip_with_Some in E as (a' & b' & [= <- <-] & E1 & E2).
      rewrite (proj2 (rd_Done _ _ _) E1), bind_Done, (proj2 (rd_Done _ _ _) E2). done.
  - intros j l. destruct (even_half j) as (-> & -> & -> & ->). cbn [Nat.eqb]. destruct (rd lr j) as [a|]; [|done]. rewrite !bind_Done.
    destruct (rd li j) as [b|] eqn:Eb; [rewrite !bind_Done; done|].
    by destruct (wr l (2 * j) a).
Qed.

Theorem set_mag_phase_spec (v mag ph : dvec A) lm lp : s_kind (data v) = KVec -> vdata mag = Done lm -> vdata ph = Done lp -> length lm = length lp ->
  exists v', set_mag_phase v mag ph = Done (v', Ok tt) /\ vdata v' = Done (complex_to_array (zip_with fpolar lm lp)) /\ same_meta v v' /\
    len v' = 2 * length lm /\ alloc_len v' = len v'.
Proof.
  intros Hk Hr Hi Hl. destruct (vdata_inv _ _ Hr) as (Lr & _). destruct (vdata_inv _ _ Hi) as (Li & _).
  unfold set_mag_phase, len. rewrite Lr, Li, Hl, Nat.eqb_refl. simpl negb. cbv iota.
  destruct (resized_storage v (length lp + length lp) Hk) as (st & r & -> & Hst & _). rewrite Hr, bind_Done, Hi, bind_Done.
  set (w := set_valid_len _ _). assert (Hw : elems w = s_elems st) by done.
  replace ((length lp + length lp + 1) / 2) with (length (zip_with fpolar lm lp)).
  2:{ rewrite zip_with_length. replace (length lp + length lp) with (2 * length lp) by lia. destruct (even_half (length lp)) as (_ & _ & _ & ->). lia. }
  rewrite (loop_ext' _ 0 _ (fun j l => x ← (a ← rd lm j; b ← rd lp j; Done (fpolar a b)); l ← wr l (2 * j) (fst x); wr l (2 * j + 1) (snd x))).
  - rewrite (fill_pairs _ (zip_with fpolar lm lp)).
    + rewrite bind_Done. eexists. split; [reflexivity|]. split.
      { apply vdata_full; [done|]. simpl. rewrite complex_to_array_length, zip_with_length. lia. }
      split_and!; try done; simpl; try lia. unfold alloc_len, s_len. simpl. rewrite complex_to_array_length, zip_with_length. lia.
    + rewrite Hw, Hst, zip_with_length. lia.
    + intros j x E. apply lookup_zip_with_Some in E as (a' & b' & -> & E1 & E2).
      rewrite (proj2 (rd_Done _ _ _) E1), bind_Done, (proj2 (rd_Done _ _ _) E2). done.
  - intros j l. destruct (rd lm j) as [a|]; [|done]. rewrite !bind_Done. by destruct (rd lp j) as [b|].
Qed.

Theorem set_mismatch (v re im : dvec A) : len re <> len im ->
  set_real_imag v re im = Done (v, Err InvalidArgumentLength) /\ set_mag_phase v re im = Done (v, Err InvalidArgumentLength).
Proof. intros Hl. unfold set_real_imag, set_mag_phase. by rewrite (proj2 (Nat.eqb_neq _ _) Hl). Qed.

(** ** to_complex *)
Lemma interleaved_pairs (l : list A) : interleaved n0 2 l = complex_to_array (map (fun x => (x, n0)) l).
Proof. induction l as [|x l IH]; [done|]. cbn. f_equal. f_equal. apply IH. Qed.

Theorem to_complex_spec (v : dvec A) l : reals v l -> typed v -> wf_storage (data v) -> can_hold (data v) (2 * length l) ->
  exists v', to_complex v = Done (v', Ok tt) /\ cplx v' (map (fun x => (x, n0)) l) /\ converted v v'.
Proof.
  intros Hv Ht Hs Hh. unfold to_complex. rewrite (proj1 Hv).
  destruct (zero_interleave_real n0 v l 2 Hv ltac:(lia)) as [(e & _ & He)|(v1 & -> & M1 & [C1 R1])].
  - exfalso. rewrite Nat.mul_comm in He. destruct (resize_takes v (2 * length l)) as (v' & Hv' & _); [by destruct Hv|]. congruence.
  - rewrite bind_Done. destruct (converted_runtime v v1 Ht M1) as [K1 K2]. eexists. split; [reflexivity|]. split; [|done].
    split; [done|]. by rewrite vdata_runtime, R1, interleaved_pairs.
Qed.

(** What happens when the storage is too small: the error is reported, but the vector has become complex without any change of its data. *)
Theorem to_complex_fails (v : dvec A) l : reals v l -> typed v -> wf_storage (data v) -> ~ can_hold (data v) (2 * length l) ->
  exists v', to_complex v = Done (v', Err TypeCanNotResize) /\ is_complex v' = true /\ vdata v' = Done l.
Proof.
  intros Hv Ht Hs Hh. unfold to_complex. rewrite (proj1 Hv).
  destruct (zero_interleave_real n0 v l 2 Hv ltac:(lia)) as [(e & -> & He)|(v1 & E1 & M1 & [C1 R1])].
  - rewrite bind_Done. destruct (converted_runtime v v Ht) as [K1 K2]; [done|].
    rewrite Nat.mul_comm in He. destruct (resize_complete n0 v v (2 * length l) (Err e) Hs He) as (Q1 & Q2 & _).
    assert (e = TypeCanNotResize) as ->.
    { assert (Hx : @Err unit e = Err TypeCanNotResize) by (apply Q2; split; [intros [? _]; destruct Hv; congruence | done]). congruence. }
    eexists. split; [reflexivity|]. split; [done|]. rewrite vdata_runtime. by destruct Hv.
  - exfalso. unfold zero_interleave in E1. rewrite (proj1 Hv) in E1. cbv zeta in E1. destruct Hv as [Hc Hv]. destruct (vdata_inv _ _ Hv) as (L1 & _).
    unfold len in E1. rewrite L1 in E1. cbv iota in E1. rewrite (Nat.mul_comm (length l) 2) in E1.
    destruct (Model_Vec.resize n0 v (2 * length l)) as [v2 r2] eqn:E2. destruct (resize_complete n0 v v2 (2 * length l) r2 Hs E2) as (Q1 & Q2 & _).
    assert (r2 = Err TypeCanNotResize) as ->. { apply Q2. split; [|done]. intros [? _]. congruence. } rewrite (proj2 (Nat.ltb_ge (2 * length l) (length l))) in E1 by lia. congruence.
Qed.

Theorem to_complex_on_complex (v : dvec A) : is_complex v = true -> typed v ->
  exists v', to_complex v = Done (v', Err InputMustBeReal) /\ is_complex v' = true /\ vdata v' = vdata v /\ converted v v'.
Proof.
  intros Hc Ht. unfold to_complex. rewrite Hc. destruct (converted_cplx v v Ht) as [H1 H2]; try done.
  eexists. split; [reflexivity|]. split_and!; try done; by rewrite vdata_to_complex.
Qed.

Theorem to_complex_b_spec (b : buffer A) (v : dvec A) l : reals v l -> l <> [] -> typed v -> lends b v (2 * length l) ->
  exists v' b', to_complex_b b v = Done (v', b') /\ cplx v' (map (fun x => (x, n0)) l) /\ converted v v'.
Proof.
  intros Hv Hne Ht Hb. unfold to_complex_b. rewrite (proj1 Hv).
  destruct (zero_interleave_b_real n0 b v l 2 Hv Hne ltac:(lia)) as (v1 & b1 & -> & M1 & [C1 R1]); [by rewrite Nat.mul_comm|].
  rewrite bind_Done. destruct M1 as (M1 & M2 & M3). destruct (converted_cplx v v1 Ht M1 M2 M3) as [K1 K2].
  eexists _, _. split; [reflexivity|]. split; [|done]. split; [done|]. by rewrite vdata_to_complex, R1, interleaved_pairs.
Qed.
Theorem to_complex_b_on_complex (b : buffer A) (v : dvec A) : is_complex v = true -> typed v ->
  exists v', to_complex_b b v = Done (v', b) /\ poisoned v' /\ is_complex v' = true.
Proof.
  intros Hc Ht. unfold to_complex_b. rewrite Hc. eexists. split; [reflexivity|]. unfold poisoned.
  destruct (converted_cplx v v Ht) as [H1 H2]; try done.
  unfold complex_result in *. unfold typed in Ht. destruct (number_space v) eqn:En, (domain v); done.
Qed.
End set.
