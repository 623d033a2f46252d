From Verif Require Export Proof_Reorg Proof_Pad Proof_PadB Proof_Split Proof_Merge.

(** Combinations used by the property theorems. *)

Lemma shift_roundtrip {A} (v : dvec A) :
  wf v -> points v <> 1 ->
  exists v1 v2, fft_shift v = Done v1 /\ ifft_shift v1 = Done v2 /\ vdata v2 = vdata v /\ same_meta v v2 /\ same_rest v v2.
Proof.
  intros Hw Hp. unfold fft_shift, ifft_shift.
  assert (Hcomb : forall v v1 v2 : dvec A, same_meta v v1 -> same_meta v1 v2 -> same_rest v v1 -> same_rest v1 v2 ->
    same_meta v v2 /\ same_rest v v2).
  { intros a b c (?&?&?) (?&?&?) (?&?&Hv&?) (?&?&?&Hd). unfold same_meta, same_rest. rewrite Hv in *. split_and!; congruence. }
  assert (Hrot : forall n, n <> 0 -> (n / 2 + (n - n / 2)) mod n = 0).
  { intros n Hn. replace (n / 2 + (n - n / 2)) with n; [by apply Nat.mod_same|].
    pose proof (Nat.div_le_upper_bound n 2 n ltac:(lia) ltac:(lia)). lia. }
  destruct (reals_or_cplx v Hw) as [[l Hl]|[c Hc]].
  - destruct (swap_halves_priv_real v l true Hl ltac:(by left)) as (v1 & l1 & H1 & H2 & H3 & H4 & H5).
    destruct (swap_halves_priv_real v1 l1 false H2) as (v2 & l2 & H6 & H7 & H8 & H9 & H10).
    { right. destruct H3 as [-> _]. destruct Hl as [Hr Hv]. apply vdata_inv in Hv as (Hv & _). unfold points in Hp. rewrite Hr, Hv in Hp.
      by rewrite Nat.div_1_r in Hp. }
    exists v1, v2. destruct (Hcomb v v1 v2) as [Hm Hr]; try done. split_and!; try done.
    destruct H7 as [_ ->], Hl as [_ ->]. f_equal. eapply rotated_compose; [exact H3|exact H8|].
    destruct H3 as [-> _]. destruct l as [|x l]; [by right|left]. apply Hrot. done.
  - destruct (swap_halves_priv_cplx v c true Hc ltac:(by left)) as (v1 & l1 & H1 & H2 & H3 & H4 & H5).
    destruct (swap_halves_priv_cplx v1 l1 false H2) as (v2 & l2 & H6 & H7 & H8 & H9 & H10).
    { right. destruct H3 as [-> _]. destruct Hc as [Hr Hv]. apply vdata_inv in Hv as (Hv & _). unfold points in Hp.
      rewrite Hr, Hv, complex_to_array_length in Hp. lia. }
    exists v1, v2. destruct (Hcomb v v1 v2) as [Hm Hr]; try done. split_and!; try done.
    destruct H7 as [_ ->], Hc as [_ ->]. do 2 f_equal. eapply rotated_compose; [exact H3|exact H8|].
    destruct H3 as [-> _]. destruct c as [|x c]; [by right|left]. apply Hrot. done.
Qed.

Lemma reverse_involutive {A} (v : dvec A) :
  wf v -> exists v1 v2, vreverse v = Done v1 /\ vreverse v1 = Done v2 /\ vdata v2 = vdata v /\ same_meta v v2 /\ same_rest v v2.
Proof.
  intros Hw.
  assert (Hcomb : forall v v1 v2 : dvec A, same_meta v v1 -> same_meta v1 v2 -> same_rest v v1 -> same_rest v1 v2 ->
    same_meta v v2 /\ same_rest v v2).
  { intros a b c (?&?&?) (?&?&?) (?&?&Hv&?) (?&?&?&Hd). unfold same_meta, same_rest. rewrite Hv in *. split_and!; congruence. }
  destruct (reals_or_cplx v Hw) as [[l Hl]|[c Hc]].
  - destruct (vreverse_real v l Hl) as (v1 & H1 & H2 & H3 & H4). destruct (vreverse_real v1 _ H2) as (v2 & H5 & H6 & H7 & H8).
    exists v1, v2. destruct (Hcomb v v1 v2) as [Hm Hr]; try done. split_and!; try done.
    destruct H6 as [_ ->], Hl as [_ ->]. by rewrite rev_involutive.
  - destruct (vreverse_cplx v c Hc) as (v1 & H1 & H2 & H3 & H4). destruct (vreverse_cplx v1 _ H2) as (v2 & H5 & H6 & H7 & H8).
    exists v1, v2. destruct (Hcomb v v1 v2) as [Hm Hr]; try done. split_and!; try done.
    destruct H6 as [_ ->], Hc as [_ ->]. by rewrite rev_involutive.
Qed.

(** Two buffers which can serve give the same data. *)
Lemma pad_b_no_leak {A} (zero : A) b1 b2 (v : dvec A) n o :
  wf v -> o <> Center ->
  lends b1 v (if is_complex v then 2 * n else n) -> lends b2 v (if is_complex v then 2 * n else n) ->
  exists v1 b1' v2 b2' r, zero_pad_b zero b1 v n o = Done (v1, b1', r) /\ zero_pad_b zero b2 v n o = Done (v2, b2', r) /\
    vdata v1 = vdata v2 /\ same_meta v v1 /\ same_meta v v2.
Proof.
  intros Hw Ho H1 H2.
  destruct (decide (n <= points v)) as [Hle|Hgt].
  { eexists _, _, _, _, _. rewrite !zero_pad_b_too_small by done. split_and!; done. }
  destruct (reals_or_cplx v Hw) as [[p Hp]|[p Hp]].
  - destruct Hp as [Hc Hv]. rewrite Hc in *. pose proof (vdata_inv _ _ Hv) as (Hl & _).
    unfold points in Hgt. rewrite Hc, Hl, Nat.div_1_r in Hgt.
    destruct (zero_pad_b_real zero b1 v p n o (conj Hc Hv) ltac:(lia) H1 Ho) as (v1 & b1' & E1 & M1 & [_ R1]).
    destruct (zero_pad_b_real zero b2 v p n o (conj Hc Hv) ltac:(lia) H2 Ho) as (v2 & b2' & E2 & M2 & [_ R2]).
    exists v1, b1', v2, b2', (Ok tt). split_and!; try done; congruence.
  - destruct Hp as [Hc Hv]. rewrite Hc in *. pose proof (vdata_inv _ _ Hv) as (Hl & _). rewrite complex_to_array_length in Hl.
    unfold points in Hgt. rewrite Hc, Hl in Hgt.
    destruct (zero_pad_b_cplx zero b1 v p n o (conj Hc Hv) ltac:(lia) H1 Ho) as (v1 & b1' & E1 & M1 & [_ R1]).
    destruct (zero_pad_b_cplx zero b2 v p n o (conj Hc Hv) ltac:(lia) H2 Ho) as (v2 & b2' & E2 & M2 & [_ R2]).
    exists v1, b1', v2, b2', (Ok tt). split_and!; try done; congruence.
Qed.

Lemma interleave_b_no_leak {A} (zero : A) b1 b2 (v : dvec A) f :
  wf v -> len v <> 0 -> lends b1 v (len v * f) -> lends b2 v (len v * f) ->
  exists v1 b1' v2 b2', zero_interleave_b zero b1 v f = Done (v1, b1') /\ zero_interleave_b zero b2 v f = Done (v2, b2') /\
    vdata v1 = vdata v2 /\ same_meta v v1 /\ same_meta v v2.
Proof.
  intros Hw Hne H1 H2.
  destruct (decide (f <= 1)) as [Hf|Hf].
  { unfold zero_interleave_b. destruct (f <=? 1) eqn:E; [|lia]. eexists _, _, _, _. split_and!; done. }
  destruct (reals_or_cplx v Hw) as [[p Hp]|[p Hp]].
  - pose proof Hp as [Hc Hv]. pose proof (vdata_inv _ _ Hv) as (Hl & _). unfold len in *. rewrite Hl in *.
    assert (p <> []) by (intros ->; done).
    destruct (zero_interleave_b_real zero b1 v p f Hp) as (v1 & b1' & E1 & M1 & [_ R1]); [done|lia|done|].
    destruct (zero_interleave_b_real zero b2 v p f Hp) as (v2 & b2' & E2 & M2 & [_ R2]); [done|lia|done|].
    exists v1, b1', v2, b2'. split_and!; try done; congruence.
  - pose proof Hp as [Hc Hv]. pose proof (vdata_inv _ _ Hv) as (Hl & _). rewrite complex_to_array_length in Hl. unfold len in *. rewrite Hl in *.
    assert (p <> []) by (intros ->; done).
    assert (Hr : 2 * length p * f = 2 * (length p * f)) by lia. rewrite Hr in H1, H2.
    destruct (zero_interleave_b_cplx zero b1 v p f Hp) as (v1 & b1' & E1 & M1 & [_ R1]); [done|lia|done|].
    destruct (zero_interleave_b_cplx zero b2 v p f Hp) as (v2 & b2' & E2 & M2 & [_ R2]); [done|lia|done|].
    exists v1, b1', v2, b2'. split_and!; try done; congruence.
Qed.

(** In place and buffered variants. *)
Lemma pad_agree {A} (zero : A) b (v : dvec A) n o :
  wf v -> o = End \/ (o = Surround /\ Nat.odd (n - points v) = true) ->
  lends b v (if is_complex v then 2 * n else n) ->
  can_hold (data v) (if is_complex v then 2 * n else n) ->
  exists v1 v2 b' r, zero_pad zero v n o = Done (v1, r) /\ zero_pad_b zero b v n o = Done (v2, b', r) /\
    vdata v1 = vdata v2 /\ same_meta v v1 /\ same_meta v v2.
Proof.
  intros Hw Ho Hb Hch.
  destruct (decide (n <= points v)) as [Hle|Hgt].
  { eexists _, _, _, _. rewrite zero_pad_b_too_small, zero_pad_too_small by done. split_and!; done. }
  assert (Hoc : o <> Center) by (destruct Ho as [-> |[-> _]]; done).
  assert (Hleft : forall X (z : X) (p : list X), length p = points v -> padded z o ((n - length p) / 2 + 1) n p = padded z o ((n - length p + 1) / 2) n p).
  { intros X z p Hp. destruct Ho as [-> |[-> Hodd]]; [done|]. f_equal. rewrite Hp.
    apply Nat.odd_spec in Hodd as [q Hq]. rewrite Hq.
    assert ((2 * q + 1) / 2 = q) as -> by lia. assert ((2 * q + 1 + 1) / 2 = q + 1) as -> by lia. done. }
  assert (Hre : forall L, (is_complex v = true -> Nat.odd L = false) -> can_hold (data v) L -> forall e v', resize zero v L = (v', Err e) -> False).
  { intros L Ho2 HL e v' Hr. unfold resize in Hr. destruct (is_complex v) eqn:E.
    - rewrite (Ho2 eq_refl) in Hr. simpl in Hr. unfold try_resize, can_hold, alloc_len in *.
      destruct (s_kind (data v)); repeat case_match; simplify_eq; lia.
    - simpl in Hr. unfold try_resize, can_hold, alloc_len in *.
      destruct (s_kind (data v)); repeat case_match; simplify_eq; lia. }
  destruct (reals_or_cplx v Hw) as [[p Hp]|[p Hp]].
  - pose proof Hp as [Hc Hv]. rewrite Hc in *. pose proof (vdata_inv _ _ Hv) as (Hl & _).
    assert (Hpt : length p = points v). { unfold points. rewrite Hc, Hl, Nat.div_1_r. done. }
    destruct (zero_pad_b_real zero b v p n o Hp ltac:(lia) Hb Hoc) as (v2 & b2' & E2 & M2 & [_ R2]).
    destruct (zero_pad_real zero v p n o Hp ltac:(lia)) as [(e & _ & He)|(v1 & E1 & M1 & [_ R1])].
    { exfalso. eapply Hre; [|exact Hch|exact He]. done. }
    exists v1, v2, b2', (Ok tt). split_and!; try done. rewrite R1, R2. f_equal. apply Hleft. done.
  - pose proof Hp as [Hc Hv]. rewrite Hc in *. pose proof (vdata_inv _ _ Hv) as (Hl & _). rewrite complex_to_array_length in Hl.
    assert (Hpt : length p = points v). { unfold points. rewrite Hc, Hl. lia. }
    destruct (zero_pad_b_cplx zero b v p n o Hp ltac:(lia) Hb Hoc) as (v2 & b2' & E2 & M2 & [_ R2]).
    destruct (zero_pad_cplx zero v p n o Hp ltac:(lia)) as [(e & _ & He)|(v1 & E1 & M1 & [_ R1])].
    { exfalso. eapply Hre; [|exact Hch|exact He]. intros _. rewrite even_odd_false. apply even_double. }
    exists v1, v2, b2', (Ok tt). split_and!; try done. rewrite R1, R2. do 2 f_equal. apply Hleft. done.
Qed.

Lemma interleave_agree {A} (zero : A) b (v : dvec A) f :
  wf v -> len v <> 0 -> 2 <= f -> lends b v (len v * f) -> can_hold (data v) (len v * f) ->
  (is_complex v = true -> Nat.even (alloc_len v) = true) ->
  exists v1 v2 b', zero_interleave zero v f = Done (v1, Ok tt) /\ zero_interleave_b zero b v f = Done (v2, b') /\
    vdata v1 = vdata v2 /\ same_meta v v1 /\ same_meta v v2.
Proof.
  intros Hw Hne Hf Hb Hch Hev.
  assert (Hre : forall L, (is_complex v = true -> Nat.odd L = false) -> can_hold (data v) L -> forall e v', resize zero v L = (v', Err e) -> False).
  { intros L Ho2 HL e v' Hr. unfold resize in Hr. destruct (is_complex v) eqn:E.
    - rewrite (Ho2 eq_refl) in Hr. simpl in Hr. unfold try_resize, can_hold, alloc_len in *.
      destruct (s_kind (data v)); repeat case_match; simplify_eq; lia.
    - simpl in Hr. unfold try_resize, can_hold, alloc_len in *.
      destruct (s_kind (data v)); repeat case_match; simplify_eq; lia. }
  destruct (reals_or_cplx v Hw) as [[p Hp]|[p Hp]].
  - pose proof Hp as [Hc Hv]. pose proof (vdata_inv _ _ Hv) as (Hl & _). unfold len in *. rewrite Hl in *.
    assert (p <> []) by (intros ->; done).
    destruct (zero_interleave_b_real zero b v p f Hp) as (v2 & b2' & E2 & M2 & [_ R2]); [done|lia|done|].
    destruct (zero_interleave_real zero v p f Hp ltac:(lia)) as [(e & _ & He)|(v1 & E1 & M1 & [_ R1])].
    { exfalso. eapply Hre; [|exact Hch|exact He]. congruence. }
    exists v1, v2, b2'. split_and!; try done; congruence.
  - pose proof Hp as [Hc Hv]. pose proof (vdata_inv _ _ Hv) as (Hl & _). rewrite complex_to_array_length in Hl. unfold len in *. rewrite Hl in *.
    assert (p <> []) by (intros ->; done).
    assert (Hr : 2 * length p * f = 2 * (length p * f)) by lia. rewrite Hr in Hb, Hch.
    destruct (zero_interleave_b_cplx zero b v p f Hp) as (v2 & b2' & E2 & M2 & [_ R2]); [done|lia|done|].
    destruct (zero_interleave_cplx zero v p f Hp ltac:(lia)) as [(e & _ & He)|(v1 & E1 & M1 & [_ R1])].
    { left. by apply Hev. }
    { exfalso. eapply Hre; [|exact Hch|exact He]. intros _. rewrite even_odd_false. apply even_double. }
    exists v1, v2, b2'. split_and!; try done; congruence.
Qed.

(** Splitting and merging again. *)
Lemma Forall2_kind_ne {A B} (R : A -> B -> Prop) l l' : l <> [] -> Forall2 R l l' -> l' <> [].
Proof. intros H HF. inversion HF; subst; done. Qed.

Lemma merge_split {A} (zero : A) (v w : dvec A) ts ts' :
  wf v -> is_complex w = is_complex v -> s_kind (data w) = KVec ->
  (is_complex v = false -> alloc_len v = len v /\ alloc_len w <= len v) ->
  Forall (fun t => is_complex t = is_complex v) ts -> ts <> [] -> points v mod length ts = 0 ->
  split_into zero v ts = Done (ts', Ok tt) ->
  exists w', vmerge zero w ts' = Done (w', Ok tt) /\ vdata w' = vdata v /\ same_meta w w'.
Proof.
  intros Hw Hcw Hk Hsp HF Hne Hm Hs.
  destruct (reals_or_cplx v Hw) as [[p Hp]|[p Hp]].
  - pose proof Hp as [Hc Hv]. pose proof (vdata_inv _ _ Hv) as (Hl & _). rewrite Hc in *.
    destruct (Hsp eq_refl) as [Ha1 Ha2].
    unfold points in Hm. rewrite Hc, Hl, Nat.div_1_r in Hm.
    destruct (split_into_real zero v ts p Hp Ha1 Hne Hm HF) as [(x & e & H1 & _)|(ts2 & parts & H1 & H2 & H3 & H4)]; rewrite Hs in H1; [discriminate|].
    injection H1 as <-.
    assert (Hne' : ts' <> []) by (eapply Forall2_kind_ne; [|exact H2]; done).
    unfold len in *. rewrite Hl in *.
    destruct (vmerge_real zero w ts' parts p Hcw Hne' H3 H4 Ha2) as [(e & _ & He)|(w' & H5 & H6 & [_ H7])].
    { exfalso. destruct (resize_kvec zero w (length p) Hk) as [w2 Hw2]; [congruence|]. congruence. }
    exists w'. split_and!; try done; congruence.
  - pose proof Hp as [Hc Hv]. pose proof (vdata_inv _ _ Hv) as (Hl & _). rewrite complex_to_array_length in Hl. rewrite Hc in *.
    assert (Hm' : length p mod length ts = 0).
    { unfold points in Hm. rewrite Hc, Hl in Hm. assert (HH : 2 * length p / 2 = length p) by lia. by rewrite HH in Hm. }
    destruct (split_into_cplx zero v ts p Hp Hne Hm' HF) as [(x & e & H1 & _)|(ts2 & parts & H1 & H2 & H3 & H4)]; rewrite Hs in H1; [discriminate|].
    injection H1 as <-.
    assert (Hne' : ts' <> []) by (eapply Forall2_kind_ne; [|exact H2]; done).
    destruct (vmerge_cplx zero w ts' parts p Hcw Hne' H3 H4) as [(e & _ & He)|(w' & H5 & H6 & [_ H7])].
    { exfalso. destruct (resize_kvec zero w (2 * length p) Hk) as [w2 Hw2]; [|congruence]. intros _. rewrite even_odd_false. apply even_double. }
    exists w'. split_and!; try done; congruence.
Qed.

Lemma swap_halves_real {A} (v : dvec A) l : reals v l ->
  exists v' l', swap_halves v = Done v' /\ fft_shift v = Done v' /\ reals v' l' /\ rotated_by (length l / 2) l l' /\ same_meta v v' /\ same_rest v v'.
Proof. intros H. destruct (swap_halves_priv_real v l true H ltac:(by left)) as (v' & l' & H1 & H2). exists v', l'. done. Qed.
Lemma swap_halves_cplx {A} (v : dvec A) l : cplx v l ->
  exists v' l', swap_halves v = Done v' /\ fft_shift v = Done v' /\ cplx v' l' /\ rotated_by (length l / 2) l l' /\ same_meta v v' /\ same_rest v v'.
Proof. intros H. destruct (swap_halves_priv_cplx v l true H ltac:(by left)) as (v' & l' & H1 & H2). exists v', l'. done. Qed.
Lemma ifft_shift_real {A} (v : dvec A) l : reals v l -> length l <> 1 ->
  exists v' l', ifft_shift v = Done v' /\ reals v' l' /\ rotated_by (length l - length l / 2) l l' /\ same_meta v v' /\ same_rest v v'.
Proof. intros H H1. exact (swap_halves_priv_real v l false H ltac:(by right)). Qed.
Lemma ifft_shift_cplx {A} (v : dvec A) l : cplx v l -> length l <> 1 ->
  exists v' l', ifft_shift v = Done v' /\ cplx v' l' /\ rotated_by (length l - length l / 2) l l' /\ same_meta v v' /\ same_rest v v'.
Proof. intros H H1. exact (swap_halves_priv_cplx v l false H ltac:(by right)). Qed.
