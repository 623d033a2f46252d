From Verif Require Import Proof_Base Proof_Vec Spec_Index.

Lemma inside_dec r n : {inside r n} + {~ inside r n}.
Proof. unfold inside. destruct (le_dec (fst (bounds r n)) (snd (bounds r n))), (le_dec (snd (bounds r n)) n); (left; lia) || (right; lia). Qed.

Section lists.
Context {P : Type}.
Implicit Types l s : list P.

Lemma index_range_cases l r :
  (inside r (length l) /\ exists s, index_range l r = Done s /\ part r l s /\ s = take (snd (bounds r (length l)) - fst (bounds r (length l))) (drop (fst (bounds r (length l))) l))
  \/ (~ inside r (length l) /\ index_range l r = Panicked).
Proof.
  assert (HS : forall a b, (a <= b <= length l /\ slice l a b = Done (take (b - a) (drop a l))) \/ (~ a <= b <= length l /\ slice l a b = Panicked)).
  { intros a b. unfold slice. destruct (a <=? b) eqn:E1, (b <=? length l) eqn:E2; simpl;
      repeat match goal with H : (_ <=? _) = true |- _ => apply Nat.leb_le in H | H : (_ <=? _) = false |- _ => apply Nat.leb_gt in H end;
      (left; split; [lia | done]) || (right; split; [lia | done]). }
  assert (HP : forall a b, a <= b <= length l -> length (take (b - a) (drop a l)) = b - a /\ forall j, j < b - a -> take (b - a) (drop a l) !! j = l !! (a + j)).
  { intros a b Hab. split; [rewrite take_length, drop_length; lia|]. intros j Hj. rewrite lookup_take by lia. by rewrite lookup_drop. }
  destruct r as [|a|b|a b]; unfold inside, part; cbn [bounds fst snd index_range].
  - left. split; [lia|]. exists l. split_and!; [done | lia | done|]. by rewrite Nat.sub_0_r, drop_0, firstn_all.
  - destruct (HS a (length l)) as [[Hi He]|[Hi He]]; [left|right]; (split; [done|]); [|done].
    eexists; split; [exact He|]. destruct (HP a (length l) Hi) as [H1 H2]. split; [|done]. split; [done|]. intros j Hj. apply H2. lia.
  - destruct (HS 0 b) as [[Hi He]|[Hi He]]; [left|right]; (split; [done|]); [|done].
    eexists; split; [exact He|]. destruct (HP 0 b Hi) as [H1 H2]. split; [|done]. split; [done|]. intros j Hj. apply H2. lia.
  - destruct (HS a b) as [[Hi He]|[Hi He]]; [left|right]; (split; [done|]); [|done].
    eexists; split; [exact He|]. destruct (HP a b Hi) as [H1 H2]. split; [|done]. split; [done|]. intros j Hj. apply H2. lia.
Qed.

Lemma part_unique r l s s' : part r l s -> part r l s' -> s = s'.
Proof.
  intros [H1 H2] [H3 H4]. apply list_eq. intros i. destruct (decide (i < length s)).
  - rewrite H2, H4 by lia. done.
  - rewrite !lookup_ge_None_2 by lia. done.
Qed.

Lemma range_start_bounds r n : range_start r = fst (bounds r n).
Proof. by destruct r. Qed.

Lemma index_mut_cases l r f : keeps_length f ->
  (inside r (length l) /\ exists l', index_mut l r f = Done l' /\ changed_in r f l l')
  \/ (~ inside r (length l) /\ index_mut l r f = Panicked).
Proof.
  intros Hf. unfold index_mut. destruct (index_range_cases l r) as [[Hi (s & He & Hp & Es)]|[Hi He]]; rewrite He; [left|by right].
  split; [done|]. rewrite bind_Done. rewrite (range_start_bounds r (length l)).
  pose proof Hp as [Hl Hn]. destruct Hi as [Ha Hb]. set (a := fst (bounds r (length l))) in *. set (b := snd (bounds r (length l))) in *.
  assert (Hfs : length (f s) = b - a) by (rewrite Hf; done).
  rewrite (splice_Done l a (f s)) by lia. eexists; split; [reflexivity|].
  assert (HL : length (take a l ++ f s ++ drop (a + length (f s)) l) = length l).
  { rewrite !app_length, take_length, drop_length. lia. }
  split; [exact HL|]. split.
  - fold a b. intros i [Hia|Hib].
    + rewrite lookup_app_l by (rewrite take_length; lia). rewrite lookup_take by lia. done.
    + rewrite lookup_app_r by (rewrite take_length; lia). rewrite take_length, Nat.min_l by lia.
      rewrite lookup_app_r by lia. rewrite lookup_drop. f_equal. lia.
  - intros s' Hs'. rewrite (part_unique r l s' s Hs' Hp). unfold part. rewrite HL. fold a b. split; [done|].
    intros j Hj. rewrite lookup_app_r by (rewrite take_length; lia). rewrite take_length, Nat.min_l by lia.
    rewrite lookup_app_l by lia. f_equal. lia.
Qed.

Lemma changed_in_unique r f l l1 l2 : inside r (length l) -> keeps_length f -> changed_in r f l l1 -> changed_in r f l l2 -> l1 = l2.
Proof.
  intros Hi Hf (L1 & O1 & I1) (L2 & O2 & I2).
  destruct (index_range_cases l r) as [[_ (s & _ & Hp & _)]|[Hn _]]; [|done].
  specialize (I1 s Hp). specialize (I2 s Hp). destruct I1 as [J1 K1], I2 as [J2 K2]. rewrite L1 in J1, K1. rewrite L2 in J2, K2.
  set (a := fst (bounds r (length l))) in *. set (b := snd (bounds r (length l))) in *.
  apply list_eq. intros i. destruct (decide (a <= i < b)) as [Hab|Hab].
  - specialize (K1 (i - a) ltac:(lia)). specialize (K2 (i - a) ltac:(lia)). replace (a + (i - a)) with i in * by lia. congruence.
  - rewrite O1, O2 by lia. done.
Qed.
End lists.

Section vectors.
Context {A : Type}.
Implicit Types v : dvec A.

Lemma vdata_slice v l : vdata v = Done l -> slice (elems v) 0 (valid_len v) = Done l /\ length l = valid_len v /\ valid_len v <= length (elems v) /\ l = take (valid_len v) (elems v).
Proof.
  intros Hv. split; [done|]. unfold vdata, slice in Hv. simpl in Hv. destruct (valid_len v <=? length (elems v)) eqn:E; [|done].
  apply Nat.leb_le in E. injection Hv as <-. rewrite Nat.sub_0_r, drop_0, take_length. split; [lia|]. split; [done|]. done.
Qed.

(** Writing back the valid part *)
Lemma put_back v l l' : vdata v = Done l -> length l' = length l ->
  exists v', (e ← splice (elems v) 0 l'; Done (set_elems v e)) = Done v' /\ vdata v' = Done l' /\ same_meta v v' /\ same_rest v v'.
Proof.
  intros Hv Hl. destruct (vdata_slice v l Hv) as (_ & H1 & H2 & H3).
  rewrite (splice_Done (elems v) 0 l') by lia. rewrite bind_Done. eexists; split; [reflexivity|].
  change (take 0 (elems v) ++ l' ++ drop (0 + length l') (elems v)) with (l' ++ drop (length l') (elems v)).
  split; [|split; [done|]].
  - unfold vdata. cbn [set_elems elems valid_len set_data data s_elems]. rewrite slice_Done.
    + rewrite Nat.sub_0_r, drop_0. f_equal. rewrite take_app_le by lia. apply take_ge. lia.
    + lia.
    + rewrite app_length, drop_length. change (elems (set_elems v (l' ++ drop (length l') (elems v)))) with (l' ++ drop (length l') (elems v)). rewrite ?app_length, ?drop_length; lia.
  - unfold same_rest. cbn. split_and!; try done. rewrite drop_app_ge by lia. rewrite Hl, H1, Nat.sub_diag, drop_0. done.
Qed.

Lemma data_at_spec v l i : vdata v = Done l ->
  (forall x, data_at v i = Done x <-> l !! i = Some x) /\ (data_at v i = Panicked <-> len v <= i).
Proof.
  intros Hv. destruct (vdata_slice v l Hv) as (H0 & H1 & _). unfold data_at. rewrite H0, bind_Done. unfold rd, len.
  destruct (l !! i) eqn:E.
  - apply lookup_lt_Some in E as Hi. split; [intros y; split; congruence|]. split; [done | lia].
  - apply lookup_ge_None in E. split; [done|]. split; [lia | done].
Qed.

Lemma data_range_spec v l r : vdata v = Done l ->
  (forall s, data_range v r = Done s <-> inside r (len v) /\ part r l s) /\ (data_range v r = Panicked <-> ~ inside r (len v)).
Proof.
  intros Hv. destruct (vdata_slice v l Hv) as (H0 & H1 & _). unfold data_range. rewrite H0, bind_Done. unfold len. rewrite <- H1.
  destruct (index_range_cases l r) as [[Hi (s & He & Hp & _)]|[Hi He]]; rewrite He.
  - split; [|done]. intros s'. split; [intros [= <-]; done|]. intros [_ Hp']. f_equal. by apply (part_unique r l).
  - split; [|done]. intros s'. split; [done | intros []; done].
Qed.

Lemma data_mut_at_spec v l i x : vdata v = Done l ->
  (i < len v -> exists v', data_mut_at v i x = Done v' /\ vdata v' = Done (<[i := x]> l) /\ same_meta v v' /\ same_rest v v') /\
  (len v <= i -> data_mut_at v i x = Panicked).
Proof.
  intros Hv. destruct (vdata_slice v l Hv) as (H0 & H1 & _). unfold data_mut_at. rewrite H0, bind_Done. unfold wr, len.
  split; intros Hi.
  - assert (E : (i <? length l) = true) by (apply Nat.ltb_lt; lia). rewrite E, bind_Done.
    apply (put_back v l); [done | by rewrite insert_length].
  - assert (E : (i <? length l) = false) by (apply Nat.ltb_ge; lia). by rewrite E.
Qed.

Lemma data_mut_range_spec v l r f : vdata v = Done l -> keeps_length f ->
  (inside r (len v) -> exists v' l', data_mut_range v r f = Done v' /\ vdata v' = Done l' /\ changed_in r f l l' /\ same_meta v v' /\ same_rest v v') /\
  (~ inside r (len v) -> data_mut_range v r f = Panicked).
Proof.
  intros Hv Hf. destruct (vdata_slice v l Hv) as (H0 & H1 & _). unfold data_mut_range. rewrite H0, bind_Done. unfold len. rewrite <- H1.
  destruct (index_mut_cases l r f Hf) as [[Hi (l' & He & Hc)]|[Hi He]]; rewrite He; (split; [|try done]); [|done].
  intros _. rewrite bind_Done. destruct (put_back v l l' Hv (proj1 Hc)) as (v' & E & Hd & Hm & Hr). by exists v', l'.
Qed.

Lemma cplx_slice v c : cplx v c -> slice (elems v) 0 (valid_len v) = Done (complex_to_array c) /\ points v = length c.
Proof.
  intros [Hc Hv]. split; [done|]. destruct (vdata_slice v _ Hv) as (_ & H1 & _). rewrite complex_to_array_length in H1.
  unfold points. rewrite Hc, <- H1. rewrite Nat.mul_comm, Nat.div_mul by lia. done.
Qed.

Lemma datac_at_spec v c i : cplx v c ->
  (forall x, datac_at v i = Done x <-> c !! i = Some x) /\ (datac_at v i = Panicked <-> points v <= i).
Proof.
  intros Hv. destruct (cplx_slice v c Hv) as [H0 H1]. unfold datac_at. rewrite H0, bind_Done, (array_to_complex_Done c), bind_Done, H1. unfold rd.
  destruct (c !! i) eqn:E.
  - apply lookup_lt_Some in E as Hi. split; [intros y; split; congruence|]. split; [done | lia].
  - apply lookup_ge_None in E. split; [done|]. split; [lia | done].
Qed.

Lemma datac_range_spec v c r : cplx v c ->
  (forall s, datac_range v r = Done s <-> inside r (points v) /\ part r c s) /\ (datac_range v r = Panicked <-> ~ inside r (points v)).
Proof.
  intros Hv. destruct (cplx_slice v c Hv) as [H0 H1]. unfold datac_range. rewrite H0, bind_Done, (array_to_complex_Done c), bind_Done, H1.
  destruct (index_range_cases c r) as [[Hi (s & He & Hp & _)]|[Hi He]]; rewrite He.
  - split; [|done]. intros s'. split; [intros [= <-]; done|]. intros [_ Hp']. f_equal. by apply (part_unique r c).
  - split; [|done]. intros s'. split; [done | intros []; done].
Qed.

Lemma put_back_complex v c c' : cplx v c -> length c' = length c ->
  exists v', (e ← splice (elems v) 0 (complex_to_array c'); Done (set_elems v e)) = Done v' /\ cplx v' c' /\ same_meta v v' /\ same_rest v v'.
Proof.
  intros [Hc Hv] Hl. destruct (put_back v _ (complex_to_array c') Hv) as (v' & E & Hd & Hm & Hr); [rewrite !complex_to_array_length; lia|].
  exists v'. split; [done|]. split; [|done]. split; [|done]. unfold is_complex in *. destruct Hm as (_ & _ & ->). done.
Qed.

Lemma datac_mut_at_spec v c i x : cplx v c ->
  (i < points v -> exists v', datac_mut_at v i x = Done v' /\ cplx v' (<[i := x]> c) /\ same_meta v v' /\ same_rest v v') /\
  (points v <= i -> datac_mut_at v i x = Panicked).
Proof.
  intros Hv. destruct (cplx_slice v c Hv) as [H0 H1]. unfold datac_mut_at. rewrite H0, bind_Done, (array_to_complex_Done c), bind_Done, H1. unfold wr.
  split; intros Hi.
  - assert (E : (i <? length c) = true) by (apply Nat.ltb_lt; lia). rewrite E, bind_Done.
    apply (put_back_complex v c); [done | by rewrite insert_length].
  - assert (E : (i <? length c) = false) by (apply Nat.ltb_ge; lia). by rewrite E.
Qed.

Lemma datac_mut_range_spec v c r f : cplx v c -> keeps_length f ->
  (inside r (points v) -> exists v' c', datac_mut_range v r f = Done v' /\ cplx v' c' /\ changed_in r f c c' /\ same_meta v v' /\ same_rest v v') /\
  (~ inside r (points v) -> datac_mut_range v r f = Panicked).
Proof.
  intros Hv Hf. destruct (cplx_slice v c Hv) as [H0 H1]. unfold datac_mut_range. rewrite H0, bind_Done, (array_to_complex_Done c), bind_Done, H1.
  destruct (index_mut_cases c r f Hf) as [[Hi (c' & He & Hc)]|[Hi He]]; rewrite He; (split; [|try done]); [|done].
  intros _. rewrite bind_Done. destruct (put_back_complex v c c' Hv (proj1 Hc)) as (v' & E & Hd & Hm & Hr). by exists v', c'.
Qed.

Lemma operator_spec v i r :
  (forall l, number_space v = NReal -> vdata v = Done l ->
    (forall y, operator_at v i = Done y <-> exists x, l !! i = Some x /\ y = inl x) /\
    (forall y, operator_range v r = Done y <-> exists s, inside r (len v) /\ part r l s /\ y = inl s)) /\
  (forall c, number_space v = NComplex -> vdata v = Done (complex_to_array c) ->
    (forall y, operator_at v i = Done y <-> exists x, c !! i = Some x /\ y = inr x) /\
    (forall y, operator_range v r = Done y <-> exists s, inside r (points v) /\ part r c s /\ y = inr s)).
Proof.
  unfold operator_at, operator_range. split; intros l Hn Hv; rewrite Hn; split; intros y.
  - destruct (data_at_spec v l i Hv) as [H1 _]. destruct (data_at v i) as [x|] eqn:E.
    + split; [intros [= <-]; exists x; split; [by apply H1 | done] | intros (x' & Hx & ->)]. apply H1 in Hx. injection Hx as <-. done.
    + split; [done | intros (x' & Hx & ->)]. apply H1 in Hx. done.
  - destruct (data_range_spec v l r Hv) as [H1 _]. destruct (data_range v r) as [x|] eqn:E.
    + split; [intros [= <-]; exists x; destruct (proj1 (H1 x) eq_refl); done | intros (x' & Hi & Hx & ->)].
      assert (Done x = Done x') as [= ->] by (by apply H1). done.
    + split; [done | intros (x' & Hi & Hx & ->)]. assert (Panicked = Done x') by (by apply H1). done.
  - assert (Hc : cplx v l) by (split; [unfold is_complex; by rewrite Hn | done]).
    destruct (datac_at_spec v l i Hc) as [H1 _]. destruct (datac_at v i) as [x|] eqn:E.
    + split; [intros [= <-]; exists x; split; [by apply H1 | done] | intros (x' & Hx & ->)]. apply H1 in Hx. injection Hx as <-. done.
    + split; [done | intros (x' & Hx & ->)]. apply H1 in Hx. done.
  - assert (Hc : cplx v l) by (split; [unfold is_complex; by rewrite Hn | done]).
    destruct (datac_range_spec v l r Hc) as [H1 _]. destruct (datac_range v r) as [x|] eqn:E.
    + split; [intros [= <-]; exists x; destruct (proj1 (H1 x) eq_refl); done | intros (x' & Hi & Hx & ->)].
      assert (Done x = Done x') as [= ->] by (by apply H1). done.
    + split; [done | intros (x' & Hi & Hx & ->)]. assert (Panicked = Done x') by (by apply H1). done.
Qed.

Lemma datac_of_real v l : reals v l ->
  (Nat.even (len v) = true -> exists c, datac_range v Full = Done c /\ complex_to_array c = l) /\
  (Nat.even (len v) = false -> datac_range v Full = Panicked).
Proof.
  intros [_ Hv]. destruct (vdata_slice v l Hv) as (H0 & H1 & _). unfold datac_range. rewrite H0, bind_Done. unfold len. rewrite <- H1.
  unfold array_to_complex. split; intros He; rewrite He; [|done]. eexists; split; [reflexivity|]. by apply complex_to_array_pairs_of.
Qed.
End vectors.
