From Verif Require Export Spec_Sum Proof_ElemOps Proof_Vec.

Section loops.
Context {P : Type}.

Lemma diff_loop_spec (sub : P -> P -> P) (l rest : list P) : l <> [] ->
  exists l' x, diff_loop sub (length l - 1) (l ++ rest) = Done (l' ++ x :: rest) /\ differences sub l l'.
Proof.
  intros Hne. assert (Hpos : 0 < length l) by (destruct l; [done | simpl; lia]). unfold diff_loop.
  set (f := fun j d => _).
  destruct (loop_inv (fun j d => length d = length (l ++ rest) /\ (forall i, j <= i -> d !! i = (l ++ rest) !! i) /\
      (forall i x y, i < j -> l !! i = Some x -> l !! (i + 1) = Some y -> d !! i = Some (sub y x)))
    (length l - 1) 0 f (l ++ rest)) as (d & Hd & Hlen & Hhi & Hlo).
  - split_and!; [done | done | intros; lia].
  - intros j d Hj (H1 & H2 & H3). subst f. cbv beta.
    destruct (rd_lt d (j + 1)) as (y & Hy & ->); [rewrite H1, app_length; lia|].
    destruct (rd_lt d j) as (x & Hx & ->); [rewrite H1, app_length; lia|]. rewrite !bind_Done.
    rewrite wr_Done by (rewrite H1, app_length; lia). eexists. split; [reflexivity|]. split_and!.
    + by rewrite insert_length.
    + intros i Hi. rewrite list_lookup_insert_ne by lia. apply H2. lia.
    + intros i x' y' Hi Hx' Hy'. destruct (decide (i = j)) as [->|].
      * rewrite list_lookup_insert by (rewrite H1, app_length; lia). rewrite H2 in Hy by lia. rewrite H2 in Hx by lia.
        rewrite lookup_app_l in Hx by lia. rewrite lookup_app_l in Hy by lia. congruence.
      * rewrite list_lookup_insert_ne by lia. apply H3; [lia | done | done].
  - rewrite Hd. rewrite Nat.add_0_l in *.
    destruct (lookup_lt_is_Some_2 l (length l - 1)) as [x Hx]; [lia|].
    exists (take (length l - 1) d), x. split.
    + f_equal. rewrite <- (take_drop (length l - 1) d) at 1. f_equal. apply list_eq. intros i. rewrite lookup_drop.
      rewrite Hhi by lia. destruct i as [|i].
      * rewrite Nat.add_0_r, lookup_app_l by lia. done.
      * cbn [lookup list_lookup]. rewrite lookup_app_r by lia. f_equal. lia.
    + split; [rewrite take_length, Hlen, app_length; lia|]. intros i a b Ha Hb.
      assert (Hi := Hb). apply lookup_lt_Some in Hi. rewrite lookup_take by lia. apply Hlo; [lia | done | done].
Qed.

Lemma diff_start_loop_spec (sub : P -> P -> P) (l rest : list P) : l <> [] ->
  exists l', diff_start_loop sub (length l) (l ++ rest) = Done (l' ++ rest) /\ differences_with_start sub l l'.
Proof.
  intros Hne. assert (Hpos : 0 < length l) by (destruct l; [done | simpl; lia]). unfold diff_start_loop.
  destruct (rd_lt (l ++ rest) 0) as (t & Ht & ->); [rewrite app_length; lia|]. rewrite bind_Done.
  rewrite lookup_app_l in Ht by lia.
  rewrite slice_Done by (rewrite ?app_length; lia). rewrite bind_Done.
  replace (length (take (length l - 1) (drop 1 (l ++ rest)))) with (length l - 1).
  2: { rewrite take_length, drop_length, app_length. lia. }
  set (f := fun j '(d, temp) => _).
  destruct (loop_inv (fun j '(d, temp) => length d = length (l ++ rest) /\ (forall i, j <= i -> d !! i = (l ++ rest) !! i) /\
      l !! (j - 1) = Some temp /\ d !! 0 = l !! 0 /\
      (forall i x y, i + 1 < j -> l !! i = Some x -> l !! (i + 1) = Some y -> d !! (i + 1) = Some (sub y x)))
    (length l - 1) 1 f (l ++ rest, t)) as ([d temp] & Hd & Hlen & Hhi & _ & H0 & Hlo).
  - split_and!; [done | done | done | by rewrite lookup_app_l by lia | intros; lia].
  - intros j [d temp] Hj (H1 & H2 & H3 & H4 & H5). subst f. cbv beta iota.
    destruct (rd_lt d j) as (x & Hx & ->); [rewrite H1, app_length; lia|]. rewrite !bind_Done.
    rewrite wr_Done by (rewrite H1, app_length; lia). rewrite bind_Done. eexists. split; [reflexivity|]. cbv beta iota.
    rewrite H2 in Hx by lia. rewrite lookup_app_l in Hx by lia. split_and!.
    + by rewrite insert_length.
    + intros i Hi. rewrite list_lookup_insert_ne by lia. apply H2. lia.
    + by replace (j + 1 - 1) with j by lia.
    + by rewrite list_lookup_insert_ne by lia.
    + intros i x' y' Hi Hx' Hy'. destruct (decide (i + 1 = j)) as [<-|].
      * rewrite list_lookup_insert by (rewrite H1, app_length; lia). replace (i + 1 - 1) with i in H3 by lia. congruence.
      * rewrite list_lookup_insert_ne by lia. apply H5; [lia | done | done].
  - rewrite Hd, bind_Done. cbn [fst]. replace (1 + (length l - 1)) with (length l) in * by lia.
    exists (take (length l) d). split.
    + f_equal. rewrite <- (take_drop (length l) d) at 1. f_equal. apply list_eq. intros i. rewrite lookup_drop.
      rewrite Hhi by lia. rewrite lookup_app_r by lia. f_equal. lia.
    + split_and!; [rewrite take_length, Hlen, app_length; lia | by rewrite lookup_take by lia |]. intros i a b Ha Hb.
      assert (Hi := Hb). apply lookup_lt_Some in Hi. rewrite lookup_take by lia. apply Hlo; [lia | done | done].
Qed.

(** The recurrence which [cum_sum] computes *)
Definition running (add : P -> P -> P) (l l' : list P) : Prop :=
  length l' = length l /\ l' !! 0 = l !! 0 /\
  forall i x y, l' !! i = Some x -> l !! (i + 1) = Some y -> l' !! (i + 1) = Some (add y x).

Lemma running_unique (add : P -> P -> P) l l1 l2 : running add l l1 -> running add l l2 -> l1 = l2.
Proof.
  intros (H1 & H2 & H3) (H1' & H2' & H3'). apply list_eq. intros i. induction i as [|i IH]; [congruence|].
  destruct (decide (S i < length l)) as [Hi|].
  - destruct (lookup_lt_is_Some_2 l1 i) as [x Hx]; [lia|]. destruct (lookup_lt_is_Some_2 l (i + 1)) as [y Hy]; [lia|].
    pose proof (H3 i x y Hx Hy) as E1. rewrite IH in Hx. pose proof (H3' i x y Hx Hy) as E2.
    rewrite Nat.add_1_r in E1, E2. congruence.
  - rewrite !lookup_ge_None_2 by lia. done.
Qed.
End loops.

Section sums.
Context {A : Type} `{Num A}.

Lemma cum_loop_spec step (l rest : list A) : 0 < step ->
  exists l', loop (length l - step) step (fun j d => y ← rd d j; x ← rd d (j - step); wr d j (y + x)%num) (l ++ rest) = Done (l' ++ rest) /\
    length l' = length l /\ (forall i, i < step -> l' !! i = l !! i) /\
    (forall i x y, l' !! i = Some x -> l !! (i + step) = Some y -> l' !! (i + step) = Some (y + x)%num).
Proof.
  intros Hs. set (f := fun j d => _).
  destruct (loop_inv (fun j d => length d = length (l ++ rest) /\ (forall i, j <= i -> d !! i = (l ++ rest) !! i) /\
      (forall i, i < step -> d !! i = (l ++ rest) !! i) /\
      (forall i x y, i + step < j -> d !! i = Some x -> l !! (i + step) = Some y -> d !! (i + step) = Some (y + x)%num))
    (length l - step) step f (l ++ rest)) as (d & Hd & Hlen & Hhi & H0 & Hlo).
  - split_and!; [done | done | done | intros; lia].
  - intros j d Hj (H1 & H2 & H3 & H4). subst f. cbv beta.
    destruct (rd_lt d j) as (y & Hy & ->); [rewrite H1, app_length; lia|].
    destruct (rd_lt d (j - step)) as (x & Hx & ->); [rewrite H1, app_length; lia|]. rewrite !bind_Done.
    rewrite wr_Done by (rewrite H1, app_length; lia). eexists. split; [reflexivity|]. split_and!.
    + by rewrite insert_length.
    + intros i Hi. rewrite list_lookup_insert_ne by lia. apply H2. lia.
    + intros i Hi. rewrite list_lookup_insert_ne by lia. by apply H3.
    + intros i x' y' Hi. rewrite list_lookup_insert_ne by lia. intros Hx' Hy'. destruct (decide (i + step = j)) as [<-|].
      * rewrite list_lookup_insert by (rewrite H1, app_length; lia). replace (i + step - step) with i in Hx by lia.
        rewrite H2 in Hy by lia. rewrite lookup_app_l in Hy by lia. congruence.
      * rewrite list_lookup_insert_ne by lia. apply H4; [lia | done | done].
  - rewrite Hd. exists (take (length l) d). split_and!.
    + f_equal. rewrite <- (take_drop (length l) d) at 1. f_equal. apply list_eq. intros i. rewrite lookup_drop.
      destruct (decide (length l + i < step)).
      * rewrite H0 by lia. rewrite lookup_app_r by lia. f_equal. lia.
      * rewrite Hhi by lia. rewrite lookup_app_r by lia. f_equal. lia.
    + rewrite take_length, Hlen, app_length. lia.
    + intros i Hi. destruct (decide (i < length l)).
      * rewrite lookup_take, H0 by lia. by rewrite lookup_app_l by lia.
      * rewrite lookup_take_ge by lia. by rewrite lookup_ge_None_2 by lia.
    + intros i x y Hx Hy. assert (Hi := Hy). apply lookup_lt_Some in Hi. rewrite lookup_take in Hx by lia. rewrite lookup_take by lia.
      apply Hlo; [lia | done | done].
Qed.

Lemma cum_sum_real (v : dvec A) l : reals v l ->
  exists v' l', cum_sum v = Done v' /\ reals v' l' /\ same_meta v v' /\ same_rest v v' /\ running nadd l l'.
Proof.
  intros [Hc Hv]. destruct (vdata_split v l Hv) as (rest & He & Hn). unfold cum_sum. rewrite Hc. unfold len. rewrite He, Hn.
  destruct (cum_loop_spec 1 l rest) as (l' & -> & Hl & H0 & Hr); [lia|]. rewrite bind_Done.
  destruct (set_elems_after v l l' rest) as (H1 & H2 & H3); try done.
  eexists _, l'. split_and!; try done. split; [done|]. split; [apply H0; lia | done].
Qed.

Lemma cum_sum_cplx (v : dvec A) c : cplx v c ->
  exists v' c', cum_sum v = Done v' /\ cplx v' c' /\ same_meta v v' /\ same_rest v v' /\ running cadd c c'.
Proof.
  intros [Hc Hv]. destruct (vdata_split v _ Hv) as (rest & He & Hn). unfold cum_sum. rewrite Hc. unfold len. rewrite He, Hn.
  destruct (cum_loop_spec 2 (complex_to_array c) rest) as (l' & -> & Hl & H0 & Hr); [lia|]. rewrite bind_Done.
  destruct (set_elems_after v (complex_to_array c) l' rest) as (H1 & H2 & H3); try done.
  destruct (exists_complex l') as [c' ->]. { rewrite Hl, complex_to_array_length. apply even_double. }
  rewrite !complex_to_array_length in Hl.
  eexists _, c'. split_and!; try done. split_and!.
  - lia.
  - pose proof (H0 0) as E0. pose proof (H0 1) as E1.
    destruct (complex_to_array_lookup c 0) as [L0 L1]. destruct (complex_to_array_lookup c' 0) as [R0 R1].
    simpl in L0, L1, R0, R1. rewrite L0, R0 in E0. rewrite L1, R1 in E1.
    specialize (E0 ltac:(lia)). specialize (E1 ltac:(lia)).
    destruct (c' !! 0) as [[]|], (c !! 0) as [[]|]; simpl in *; congruence.
  - intros i [x1 x2] [y1 y2] Hx Hy.
    destruct (complex_to_array_lookup c (i + 1)) as [L0 L1]. destruct (complex_to_array_lookup c' i) as [R0 R1].
    destruct (complex_to_array_lookup c' (i + 1)) as [S0 S1]. rewrite Hx in R0, R1. rewrite Hy in L0, L1. simpl in R0, R1, L0, L1.
    pose proof (Hr (2 * i) x1 y1 R0) as E0. pose proof (Hr (2 * i + 1) x2 y2 R1) as E1.
    replace (2 * i + 2) with (2 * (i + 1)) in E0 by lia. replace (2 * i + 1 + 2) with (2 * (i + 1) + 1) in E1 by lia.
    rewrite S0 in E0. rewrite S1 in E1. specialize (E0 L0). specialize (E1 L1).
    destruct (c' !! (i + 1)) as [[]|]; simpl in *; [|done]. unfold cadd. simpl. congruence.
Qed.

Lemma diff_real (v : dvec A) l : reals v l -> l <> [] ->
  exists v' l', diff v = Done v' /\ reals v' l' /\ same_meta v v' /\ differences nsub l l'.
Proof.
  intros [Hc Hv] Hne. destruct (vdata_split v l Hv) as (rest & He & Hn). unfold diff. rewrite Hc. unfold len. rewrite He, Hn.
  assert (Hpos : 0 < length l) by (destruct l; [done | simpl; lia]).
  rewrite usub_Done by lia. rewrite bind_Done. destruct (diff_loop_spec nsub l rest Hne) as (l' & x & -> & Hd). rewrite bind_Done.
  eexists _, l'. split_and!; try done. split; [done|].
  apply vdata_intro with (x :: rest); [done|]. cbn [valid_len set_valid_len]. by destruct Hd as [-> _].
Qed.

Lemma diff_cplx (v : dvec A) c : cplx v c -> c <> [] -> whole_points v ->
  exists v' c', diff v = Done v' /\ cplx v' c' /\ same_meta v v' /\ differences csub c c'.
Proof.
  intros [Hc Hv] Hne Hw. destruct (vdata_split v _ Hv) as (rest & He & Hn). unfold diff. rewrite Hc. unfold len.
  specialize (Hw Hc). unfold alloc_len, s_len in Hw. fold (elems v) in Hw.
  rewrite complex_to_array_length in Hn. rewrite He in *.
  assert (Hev : Nat.even (length rest) = true).
  { rewrite app_length, complex_to_array_length, Nat.even_add, even_double in Hw. by destruct (Nat.even (length rest)). }
  destruct (exists_complex rest Hev) as [cr ->]. rewrite <- complex_to_array_app, array_to_complex_Done, Hn, div2_double.
  assert (Hpos : 0 < length c) by (destruct c; [done | simpl; lia]).
  rewrite !usub_Done by lia. rewrite !bind_Done. destruct (diff_loop_spec csub c cr Hne) as (c' & x & -> & Hd). rewrite bind_Done.
  eexists _, c'. split_and!; try done. split; [done|].
  apply vdata_intro with (complex_to_array (x :: cr)).
  - by rewrite <- complex_to_array_app.
  - cbn [valid_len set_valid_len]. destruct Hd as [Hd _]. rewrite complex_to_array_length, Hd. lia.
Qed.

Lemma diff_empty (v : dvec A) : len v = 0 -> diff v = Panicked.
Proof. intros Hz. unfold diff. rewrite Hz. by destruct (is_complex v). Qed.

Lemma diff_with_start_real (v : dvec A) l : reals v l ->
  exists v' l', diff_with_start v = Done v' /\ reals v' l' /\ same_meta v v' /\ same_rest v v' /\ differences_with_start nsub l l'.
Proof.
  intros [Hc Hv]. destruct (vdata_split v l Hv) as (rest & He & Hn). unfold diff_with_start. rewrite Hc. unfold len. rewrite He, Hn.
  destruct (decide (l = [])) as [->|Hne].
  { exists v, []. by split_and!. }
  assert (Hpos : 0 < length l) by (destruct l; [done | simpl; lia]). destruct (length l =? 0) eqn:E; [lia|].
  destruct (diff_start_loop_spec nsub l rest Hne) as (l' & -> & Hd). rewrite bind_Done.
  destruct (set_elems_after v l l' rest) as (H1 & H2 & H3); try done; [by destruct Hd as [-> _]|].
  eexists _, l'. by split_and!.
Qed.

Lemma diff_with_start_cplx (v : dvec A) c : cplx v c -> whole_points v ->
  exists v' c', diff_with_start v = Done v' /\ cplx v' c' /\ same_meta v v' /\ same_rest v v' /\ differences_with_start csub c c'.
Proof.
  intros [Hc Hv] Hw. destruct (vdata_split v _ Hv) as (rest & He & Hn). unfold diff_with_start. rewrite Hc. unfold len.
  specialize (Hw Hc). unfold alloc_len, s_len in Hw. fold (elems v) in Hw. assert (Hn' := Hn).
  rewrite complex_to_array_length in Hn. rewrite He in Hw |- *.
  destruct (decide (c = [])) as [->|Hne].
  { rewrite Hn. exists v, []. by split_and!. }
  assert (Hev : Nat.even (length rest) = true).
  { rewrite app_length, complex_to_array_length, Nat.even_add, even_double in Hw. by destruct (Nat.even (length rest)). }
  assert (Hpos : 0 < length c) by (destruct c; [done | simpl; lia]). rewrite Hn. destruct (2 * length c =? 0) eqn:E; [lia|].
  destruct (exists_complex rest Hev) as [cr ->]. rewrite <- complex_to_array_app, array_to_complex_Done, div2_double, bind_Done.
  destruct (diff_start_loop_spec csub c cr Hne) as (c' & -> & Hd). rewrite bind_Done, complex_to_array_app.
  destruct (set_elems_after v (complex_to_array c) (complex_to_array c') (complex_to_array cr)) as (H1 & H2 & H3); try done.
  { rewrite !complex_to_array_length. by destruct Hd as [-> _]. }
  eexists _, c'. by split_and!.
Qed.
End sums.

(** ** Exact arithmetic *)

Section exact.
Context {A : Type} `{Num A} (R : exact_ring A).
Let R' : ring_theory n0 n1 nadd nmul nsub nopp eq := R.
Add Ring Aring : R'.

Lemma foldr_snoc {P} (add : P -> P -> P) zero (l : list P) x :
  (forall a b c, add a (add b c) = add (add a b) c) -> (forall a b, add a b = add b a) ->
  foldr add zero (l ++ [x]) = add x (foldr add zero l).
Proof.
  intros Ha Hc. induction l as [|y l IH]; [done|]. cbn [app foldr]. rewrite IH. rewrite !Ha. f_equal. apply Hc.
Qed.

Lemma running_prefix {P} (add : P -> P -> P) zero (l l' : list P) :
  (forall a b c, add a (add b c) = add (add a b) c) -> (forall a b, add a b = add b a) -> (forall a, add a zero = a) ->
  running add l l' -> prefix_sums add zero l l'.
Proof.
  intros Ha Hc Hz (H1 & H2 & H3). split; [done|]. intros i. induction i as [|i IH]; intros Hi.
  - rewrite H2. destruct l as [|x l]; [simpl in Hi; lia|]. unfold sum_of. cbn [lookup list_lookup take Nat.add]. rewrite take_0. change (Some x = Some (add x zero)). by rewrite Hz.
  - specialize (IH ltac:(lia)). destruct (lookup_lt_is_Some_2 l (i + 1)) as [y Hy]; [lia|].
    pose proof (H3 i _ y IH Hy) as E. rewrite Nat.add_1_r in E. rewrite E. f_equal.
    rewrite Nat.add_1_r in Hy. replace (S i + 1) with (S (S i)) by lia. rewrite (take_S_r _ _ _ Hy). unfold sum_of.
    rewrite foldr_snoc by done. done.
Qed.

Lemma cadd_assoc (a b c : A * A) : cadd a (cadd b c) = cadd (cadd a b) c.
Proof. destruct a, b, c. unfold cadd. cbn [fst snd]. f_equal; ring. Qed.
Lemma cadd_comm (a b : A * A) : cadd a b = cadd b a.
Proof. destruct a, b. unfold cadd. cbn [fst snd]. f_equal; ring. Qed.
Lemma cadd_zero (a : A * A) : cadd a (n0, n0) = a.
Proof. destruct a. unfold cadd. cbn [fst snd]. f_equal; ring. Qed.

Lemma running_differences {P} (add sub : P -> P -> P) (l l' : list P) :
  (forall a b, add (sub a b) b = a) -> differences_with_start sub l l' -> running add l' l.
Proof.
  intros Ha (H1 & H2 & H3). split_and!; [done | done |]. intros i x y Hx Hy.
  destruct (lookup_lt_is_Some_2 l (i + 1)) as [z Hz]; [rewrite <- H1; by apply lookup_lt_Some in Hy|].
  pose proof (H3 i x z Hx Hz) as E. rewrite Hy in E. injection E as ->. by rewrite Ha.
Qed.

Theorem cum_sum_spec (v : dvec A) :
  (forall l, reals v l -> exists v' l', cum_sum v = Done v' /\ reals v' l' /\ same_meta v v' /\ same_rest v v' /\
     prefix_sums nadd n0 l l') /\
  (forall c, cplx v c -> exists v' c', cum_sum v = Done v' /\ cplx v' c' /\ same_meta v v' /\ same_rest v v' /\
     prefix_sums cadd (n0, n0) c c').
Proof.
  split.
  - intros l Hv. destruct (cum_sum_real v l Hv) as (v' & l' & ? & ? & ? & ? & Hr). exists v', l'. split_and!; try done.
    apply running_prefix; [intros; ring.. | done].
  - intros c Hv. destruct (cum_sum_cplx v c Hv) as (v' & c' & ? & ? & ? & ? & Hr). exists v', c'. split_and!; try done.
    apply running_prefix; [apply cadd_assoc | apply cadd_comm | apply cadd_zero | done].
Qed.

Theorem cum_sum_undoes_diff (v : dvec A) : wf v -> whole_points v ->
  exists v1 v2, diff_with_start v = Done v1 /\ cum_sum v1 = Done v2 /\ vdata v2 = vdata v /\ same_meta v v2 /\ same_rest v v2.
Proof.
  intros Hwf Hw. destruct (reals_or_cplx v Hwf) as [[l Hv]|[c Hv]].
  - destruct (diff_with_start_real v l Hv) as (v1 & l1 & -> & Hr1 & Hm1 & Hs1 & Hd).
    destruct (cum_sum_real v1 l1 Hr1) as (v2 & l2 & E2 & [_ Hr2] & Hm2 & Hs2 & Hd2). exists v1, v2. rewrite E2.
    assert (l2 = l) as ->. { apply (running_unique nadd l1); [done|]. apply (running_differences nadd nsub); [|done]. intros; ring. }
    destruct Hv as [_ Hv]. rewrite Hv. split_and!; try done.
    + destruct Hm1 as (? & ? & ?), Hm2 as (? & ? & ?). split_and!; congruence.
    + destruct Hs1 as (? & ? & E & ?), Hs2 as (? & ? & E' & ?). rewrite E in *. split_and!; congruence.
  - destruct (diff_with_start_cplx v c Hv Hw) as (v1 & l1 & -> & Hr1 & Hm1 & Hs1 & Hd).
    destruct (cum_sum_cplx v1 l1 Hr1) as (v2 & l2 & E2 & [_ Hr2] & Hm2 & Hs2 & Hd2). exists v1, v2. rewrite E2.
    assert (l2 = c) as ->.
    { apply (running_unique cadd l1); [done|]. apply (running_differences cadd csub); [|done].
      intros [] []. unfold cadd, csub. cbn [fst snd]. f_equal; ring. }
    destruct Hv as [_ Hv]. rewrite Hv. split_and!; try done.
    + destruct Hm1 as (? & ? & ?), Hm2 as (? & ? & ?). split_and!; congruence.
    + destruct Hs1 as (? & ? & E & ?), Hs2 as (? & ? & E' & ?). rewrite E in *. split_and!; congruence.
Qed.
End exact.
