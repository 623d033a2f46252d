From Verif Require Export Proof_Vec.

Lemma wr_target_Done {A} (ts : list (dvec A)) k pos x t :
  ts !! k = Some t -> pos < length (elems t) ->
  wr_target ts k pos x = Done (<[k := set_elems t (<[pos := x]> (elems t))]> ts).
Proof.
  intros Ht Hp. unfold wr_target. apply rd_Done in Ht as Hr. rewrite Hr, bind_Done, wr_Done by done.
  rewrite bind_Done, wr_Done; [done|]. by apply lookup_lt_Some in Ht.
Qed.

Lemma resize_all_Ok {A} (zero : A) ts ts' n :
  resize_all zero ts n = (ts', Ok tt) -> Forall2 (fun t t' => resize zero t n = (t', Ok tt)) ts ts'.
Proof.
  revert ts'. induction ts as [|t ts IH]; intros ts' H; simpl in H.
  - injection H as <-. constructor.
  - destruct (resize zero t n) as [t' [[]|e]] eqn:E; [|discriminate].
    destruct (resize_all zero ts n) as [ts'' r] eqn:E2. injection H as <- ->.
    constructor; [done|]. apply IH. done.
Qed.

(** ** split_into *)

(** Elements which target [j] of [k] has after [i] points of [w] elements were dealt. *)
Definition dealt_upto {A} (w k : nat) (l : list A) (ts0 ts : list (dvec A)) (i : nat) : Prop :=
  length ts = k /\
  forall j t0, ts0 !! j = Some t0 ->
    exists E, ts !! j = Some (set_elems t0 E) /\ length E = length (elems t0) /\
      forall q, E !! q = if (q / w) * k + j <? i then l !! (w * ((q / w) * k + j) + q mod w) else elems t0 !! q.

Lemma dealt_step {A} w k (l : list A) ts0 ts i x :
  w = 1 \/ w = 2 -> 0 < k -> length ts0 = k -> (forall j t0, ts0 !! j = Some t0 -> length l <= length (elems t0) * k) ->
  i < length l -> i mod w = 0 -> l !! i = Some x -> w = 1 ->
  dealt_upto w k l ts0 ts i ->
  exists ts', wr_target ts (i mod k) (i / k) x = Done ts' /\ dealt_upto w k l ts0 ts' (i + 1).
Proof.
  intros _ Hk Hl0 Hbig Hi _ Hx -> [Hlen Hts].
  destruct (lookup_lt_is_Some_2 ts0 (i mod k)) as [t0 Ht0]; [lia|].
  destruct (Hts _ _ Ht0) as (E & HE & HEl & HEq).
  specialize (Hbig _ _ Ht0).
  assert (Hpos : i / k < length E).
  { rewrite HEl. apply Nat.div_lt_upper_bound; lia. }
  rewrite (wr_target_Done _ _ _ _ _ HE) by (rewrite set_elems_elems; done).
  eexists; split; [done|]. split; [by rewrite insert_length|].
  intros j t0' Ht0'.
  destruct (decide (j = i mod k)) as [-> |Hne].
  - rewrite Ht0 in Ht0'. injection Ht0' as <-.
    exists (<[i / k := x]> E). rewrite list_lookup_insert by lia.
    split; [done|]. split; [by rewrite insert_length|].
    intros q. rewrite !Nat.div_1_r. rewrite Nat.mod_1_r, Nat.add_0_r, Nat.mul_1_l.
    pose proof (Nat.div_mod i k ltac:(lia)) as Hdm.
    destruct (decide (q = i / k)) as [-> |Hq].
    + rewrite list_lookup_insert by lia.
      assert (i / k * k + i mod k = i) as -> by lia.
      destruct (i <? i + 1) eqn:E1; [done|lia].
    + rewrite list_lookup_insert_ne by done. rewrite HEq.
      rewrite !Nat.div_1_r. rewrite Nat.mod_1_r, Nat.add_0_r, Nat.mul_1_l.
      assert (q * k + i mod k <> i). { intros HH. apply Hq. assert ((q - i / k) * k = 0) by nia. nia. }
      destruct (q * k + i mod k <? i) eqn:E1, (q * k + i mod k <? i + 1) eqn:E2; try done; lia.
  - destruct (Hts _ _ Ht0') as (E' & HE' & HEl' & HEq'). exists E'.
    rewrite list_lookup_insert_ne by done. split_and!; [done|done|].
    intros q. rewrite HEq', !Nat.div_1_r.
    assert (q * k + j <> i).
    { intros HH. apply Hne. rewrite <- HH. rewrite (Nat.add_comm (_ * _)), Nat.mod_add by lia.
      rewrite Nat.mod_small; [done|]. apply lookup_lt_Some in Ht0'. lia. }
    destruct (q * k + j <? i) eqn:E1, (q * k + j <? i + 1) eqn:E2; try done; lia.
Qed.

Lemma dealt_init {A} w k (l : list A) ts0 : length ts0 = k -> dealt_upto w k l ts0 ts0 0.
Proof.
  intros H. split; [done|]. intros j t0 Ht. exists (elems t0).
  split; [|split; [done|]].
  - rewrite Ht. f_equal. destruct t0 as [[]]; done.
  - intros q. destruct (_ <? 0) eqn:E; [apply Nat.ltb_lt, Nat.nlt_0_r in E; done|done].
Qed.

Lemma split_loop_real {A} k (l : list A) ts0 :
  0 < k -> length ts0 = k -> (forall j t0, ts0 !! j = Some t0 -> length l <= length (elems t0) * k) ->
  exists ts, loop (length l) 0 (fun i ts =>
          let k0 := i mod k in
          let pos := i / k in
          x ← rd l i;
          wr_target ts k0 pos x) ts0 = Done ts /\ dealt_upto 1 k l ts0 ts (length l).
Proof.
  intros Hk Hl Hbig.
  destruct (loop_inv (fun i ts => dealt_upto 1 k l ts0 ts i) (length l) 0
     (fun i ts => let k0 := i mod k in let pos := i / k in x ← rd l i; wr_target ts k0 pos x) ts0) as (ts & -> & H).
  - by apply dealt_init.
  - intros i ts Hi Hd. destruct (rd_lt l i ltac:(lia)) as (x & Hx & Hr). cbv zeta. rewrite Hr, bind_Done.
    eapply (dealt_step 1); try done; try lia.
  - exists ts. split; [done|]. exact H.
Qed.

Lemma split_loop_cplx {A} k (c : list (A * A)) rest ts0 :
  0 < k -> length ts0 = k -> (forall j t0, ts0 !! j = Some t0 -> exists e, length (elems t0) >= 2 * e /\ length c <= e * k) ->
  exists ts, loop (length c) 0 (fun i ts =>
          let k0 := i mod k in
          let pos := i / k in
          x ← rd (complex_to_array c ++ rest) (2 * i);
          ts ← wr_target ts k0 (2 * pos) x;
          y ← rd (complex_to_array c ++ rest) (2 * i + 1);
          wr_target ts k0 (2 * pos + 1) y) ts0 = Done ts /\ dealt_upto 2 k (complex_to_array c) ts0 ts (length c).
Proof.
  intros Hk Hl0 Hbig. set (l := complex_to_array c ++ rest). set (L := complex_to_array c).
  assert (HL : length L = 2 * length c) by apply complex_to_array_length.
  destruct (loop_inv (fun i ts => dealt_upto 2 k L ts0 ts i) (length c) 0
     (fun i ts => let k0 := i mod k in let pos := i / k in
          x ← rd l (2 * i); ts ← wr_target ts k0 (2 * pos) x; y ← rd l (2 * i + 1); wr_target ts k0 (2 * pos + 1) y) ts0)
    as (ts & -> & H).
  - by apply dealt_init.
  - intros i ts Hi [Hlen Hts]. cbv zeta.
    destruct (lookup_lt_is_Some_2 L (2 * i)) as [x Hx]; [lia|].
    destruct (lookup_lt_is_Some_2 L (2 * i + 1)) as [y Hy]; [lia|].
    assert (Hx' : rd l (2 * i) = Done x). { apply rd_Done. unfold l. rewrite lookup_app_l by (fold L; lia). done. }
    assert (Hy' : rd l (2 * i + 1) = Done y). { apply rd_Done. unfold l. rewrite lookup_app_l by (fold L; lia). done. }
    rewrite Hx', bind_Done.
    destruct (lookup_lt_is_Some_2 ts0 (i mod k)) as [t0 Ht0]; [lia|].
    destruct (Hts _ _ Ht0) as (E & HE & HEl & HEq).
    destruct (Hbig _ _ Ht0) as (e & He1 & He2).
    assert (Hpos : i / k < e) by (apply Nat.div_lt_upper_bound; lia).
    rewrite (wr_target_Done _ _ _ _ _ HE) by (rewrite set_elems_elems; lia).
    rewrite bind_Done, Hy', bind_Done, set_elems_elems.
    erewrite wr_target_Done.
    2:{ apply list_lookup_insert. lia. }
    2:{ rewrite set_elems_elems, insert_length. lia. }
    eexists; split; [done|]. split; [by rewrite !insert_length|].
    intros j t0' Ht0'.
    destruct (decide (j = i mod k)) as [-> |Hne].
    + rewrite Ht0 in Ht0'. injection Ht0' as <-.
      exists (<[2 * (i / k) + 1 := y]> (<[2 * (i / k) := x]> E)).
      rewrite list_lookup_insert by (rewrite insert_length; lia).
      split; [done|]. split; [by rewrite !insert_length|].
      intros q. pose proof (Nat.div_mod i k ltac:(lia)) as Hdm.
      pose proof (Nat.div_mod q 2 ltac:(lia)) as Hqm. pose proof (Nat.mod_upper_bound q 2 ltac:(lia)).
      destruct (decide (q / 2 = i / k)) as [Hq|Hq].
      * assert (q / 2 * k + i mod k = i) as -> by (rewrite Hq; lia).
        destruct (i <? i + 1) eqn:E1; [|lia].
        destruct (decide (q mod 2 = 0)) as [Hz|Hz].
        -- assert (q = 2 * (i / k)) by lia. rewrite list_lookup_insert_ne by lia. subst q.
           rewrite list_lookup_insert by lia. rewrite Hz, Nat.add_0_r. done.
        -- assert (q = 2 * (i / k) + 1) as Hq1 by lia. assert (Hm : q mod 2 = 1) by lia. rewrite Hm. rewrite Hq1.
           rewrite list_lookup_insert by (rewrite insert_length; lia). done.
      * rewrite !list_lookup_insert_ne by lia. rewrite HEq.
        assert (q / 2 * k + i mod k <> i). { intros HH. apply Hq. set (a := q / 2) in *. set (b := i / k) in *.
          assert (a * k = b * k) by lia. clearbody a b. nia. }
        destruct (q / 2 * k + i mod k <? i) eqn:E1, (q / 2 * k + i mod k <? i + 1) eqn:E2; try done; lia.
    + destruct (Hts _ _ Ht0') as (E' & HE' & HEl' & HEq'). exists E'.
      rewrite !list_lookup_insert_ne by done. split_and!; [done|done|].
      intros q. rewrite HEq'.
      assert (q / 2 * k + j <> i).
      { intros HH. apply Hne. rewrite <- HH. rewrite (Nat.add_comm (_ * _)), Nat.mod_add by lia.
        rewrite Nat.mod_small; [done|]. apply lookup_lt_Some in Ht0'. lia. }
      destruct (q / 2 * k + j <? i) eqn:E1, (q / 2 * k + j <? i + 1) eqn:E2; try done; lia.
  - exists ts. split; [done|]. exact H.
Qed.

Lemma list_from_fun {A} n (f : nat -> option A) :
  (forall i, i < n -> is_Some (f i)) -> exists l, length l = n /\ forall i, i < n -> l !! i = f i.
Proof.
  induction n as [|n IH]; intros H.
  - exists []. split; [done|]. lia.
  - destruct IH as (l & Hl & Hf); [intros; apply H; lia|]. destruct (H n) as [x Hx]; [lia|].
    exists (l ++ [x]). rewrite app_length; simpl. split; [lia|]. intros i Hi.
    destruct (decide (i = n)) as [-> |].
    + rewrite lookup_app_r by lia. rewrite Hl, Nat.sub_diag. done.
    + rewrite lookup_app_l by lia. apply Hf. lia.
Qed.

Lemma div_exact (n k : nat) : 0 < k -> n mod k = 0 -> n / k * k = n.
Proof. intros Hk Hm. pose proof (Nat.div_mod n k ltac:(lia)). lia. Qed.

(** Real [split_into] when the storage of [v] has no spare elements. *)
Lemma split_into_real {A} (zero : A) (v : dvec A) ts p :
  reals v p -> alloc_len v = len v -> ts <> [] -> length p mod length ts = 0 ->
  Forall (fun t => is_complex t = false) ts ->
  (exists ts' e, split_into zero v ts = Done (ts', Err e) /\ resize_all zero ts (length p / length ts) = (ts', Err e)) \/
  exists ts' parts, split_into zero v ts = Done (ts', Ok tt) /\ Forall2 same_meta ts ts' /\
    Forall2 reals ts' parts /\ dealt p parts.
Proof.
  intros [Hc Hv] Hal Hne Hm Hreal. unfold split_into.
  pose proof (vdata_inv v p Hv) as (Hl & _ & Htk). unfold len in *. rewrite Hl.
  assert (Hk : 0 < length ts) by (destruct ts; simpl; [done|lia]).
  destruct (length ts =? 0) eqn:E0; [lia|]. rewrite Hm. cbn [orb negb Nat.eqb].
  destruct (resize_all zero ts (length p / length ts)) as [ts' [[]|e]] eqn:Er; [|left; eauto].
  right. rewrite Hc. apply resize_all_Ok in Er.
  assert (Hel : elems v = p). { unfold alloc_len, s_len in Hal. fold (elems v) in Hal. rewrite <- Htk. rewrite take_ge; [done|lia]. }
  rewrite Hel.
  assert (Hln : length ts' = length ts) by (symmetry; by eapply Forall2_length).
  set (k := length ts) in *. set (m := length p / k) in *.
  assert (Hmk : m * k = length p) by (apply div_exact; lia).
  assert (Hprop : forall j t0, ts' !! j = Some t0 -> exists t, ts !! j = Some t /\ len t0 = m /\ same_meta t t0 /\ m <= length (elems t0)).
  { intros j t0 Ht0. eapply Forall2_lookup_r in Er as (t & Ht & Hr); [|exact Ht0].
    exists t. split; [done|].
    destruct (resize_cases zero t m) as [[e He]|(v' & n' & H1 & H2 & H3 & H4 & H5 & H6 & _)].
    - rewrite He in Hr. discriminate.
    - rewrite H1 in Hr. injection Hr as <-. split_and!; try done. }
  destruct (split_loop_real k p ts') as (ts'' & Hloop & [Hlts Hd]); [lia|lia| |].
  { intros j t0 Ht0. destruct (Hprop _ _ Ht0) as (t & _ & _ & _ & Hme).
    rewrite <- Hmk. apply Nat.mul_le_mono_r. lia. }
  cbv zeta in Hloop |- *. rewrite Hloop, bind_Done.
  assert (Hidx : forall j i, j < k -> i < m -> i * k + j < length p). { intros j i Hj Hi. rewrite <- Hmk. nia. }
  (* the parts *)
  assert (Hparts : exists parts, length parts = k /\ forall j, j < k -> exists part,
      parts !! j = Some part /\ length part = m /\ forall i, i < m -> part !! i = p !! (i * k + j)).
  { assert (HF : forall n, n <= k -> exists parts : list (list A), length parts = n /\ forall j, j < n -> exists part,
      parts !! j = Some part /\ length part = m /\ forall i, i < m -> part !! i = p !! (i * k + j)).
    { induction n as [|n IH]; intros Hn; [exists []; split; [done|lia]|].
      destruct IH as (parts & H1 & H2); [lia|].
      destruct (list_from_fun m (fun i => p !! (i * k + n))) as (part & Hp1 & Hp2).
      { intros i Hi. apply lookup_lt_is_Some_2. apply Hidx; lia. }
      exists (parts ++ [part]). rewrite app_length; simpl. split; [lia|].
      intros j Hj. destruct (decide (j = n)) as [-> |].
      - exists part. rewrite lookup_app_r by lia. rewrite H1, Nat.sub_diag. done.
      - destruct (H2 j ltac:(lia)) as (part' & H3 & H4). exists part'. rewrite lookup_app_l by lia. done. }
    apply HF. lia. }
  destruct Hparts as (parts & Hpl & Hparts).
  exists ts'', parts. split; [done|].
  assert (Hall : forall j t'', ts'' !! j = Some t'' -> exists t part, ts !! j = Some t /\ parts !! j = Some part /\
      same_meta t t'' /\ vdata t'' = Done part).
  { intros j t'' Ht''. pose proof (lookup_lt_Some _ _ _ Ht'') as Hj.
    destruct (lookup_lt_is_Some_2 ts' j) as [t0 Ht0]; [lia|].
    destruct (Hprop _ _ Ht0) as (t & Ht & Hlen0 & Hsm & Hme).
    destruct (Hd _ _ Ht0) as (E & HE & HEl & HEq). rewrite Ht'' in HE. injection HE as ->.
    destruct (Hparts j ltac:(lia)) as (part & Hpart & Hplen & Hpi).
    exists t, part. split_and!; try done.
    unfold len in Hlen0. apply (vdata_intro _ _ (drop m E)); [|simpl; lia].
    rewrite set_elems_elems. rewrite <- (take_drop m E) at 1. f_equal.
    apply list_eq_same_length with m; [done|rewrite take_length, HEl; lia|].
    intros i x y Hi H1 H2. rewrite lookup_take in H1 by done. rewrite HEq in H1. rewrite Hpi in H2 by done.
    rewrite Nat.div_1_r, Nat.mod_1_r, Nat.mul_1_l, Nat.add_0_r in H1. pose proof (Hidx j i ltac:(lia) Hi).
    destruct (i * k + j <? length p) eqn:E1; [congruence|lia]. }
  split_and!.
  - apply Forall2_same_length_lookup_2; [lia|]. intros j t t'' H1 H2.
    destruct (Hall _ _ H2) as (t1 & part & Ht1 & _ & Hs & _). rewrite H1 in Ht1. injection Ht1 as ->. done.
  - apply Forall2_same_length_lookup_2; [lia|]. intros j t'' part H1 H2.
    destruct (Hall _ _ H1) as (t1 & part' & Ht1 & Hp' & Hs & Hvd). rewrite H2 in Hp'. injection Hp' as ->.
    split; [|done]. destruct Hs as (_ & _ & Hs). unfold is_complex. rewrite Hs.
    rewrite Forall_lookup in Hreal. apply (Hreal _ _ Ht1).
  - intros j part Hpart. cbv zeta. rewrite Hpl. pose proof (lookup_lt_Some _ _ _ Hpart) as Hj.
    destruct (Hparts j ltac:(lia)) as (part' & Hp' & Hplen & Hpi). rewrite Hpart in Hp'. injection Hp' as <-.
    rewrite Hplen. split; [lia|]. done.
Qed.

Lemma dealt_parts {A} (p : list A) k m :
  m * k = length p ->
  exists parts, length parts = k /\ dealt p parts /\ forall j, j < k -> exists part,
      parts !! j = Some part /\ length part = m /\ forall i, i < m -> part !! i = p !! (i * k + j).
Proof.
  intros Hmk.
  assert (Hidx : forall j i, j < k -> i < m -> i * k + j < length p). { intros j i Hj Hi. rewrite <- Hmk. nia. }
  assert (HF : forall n, n <= k -> exists parts : list (list A), length parts = n /\ forall j, j < n -> exists part,
      parts !! j = Some part /\ length part = m /\ forall i, i < m -> part !! i = p !! (i * k + j)).
  { induction n as [|n IH]; intros Hn; [exists []; split; [done|lia]|].
    destruct IH as (parts & H1 & H2); [lia|].
    destruct (list_from_fun m (fun i => p !! (i * k + n))) as (part & Hp1 & Hp2).
    { intros i Hi. apply lookup_lt_is_Some_2. apply Hidx; lia. }
    exists (parts ++ [part]). rewrite app_length; simpl. split; [lia|].
    intros j Hj. destruct (decide (j = n)) as [-> |].
    - exists part. rewrite lookup_app_r by lia. rewrite H1, Nat.sub_diag. done.
    - destruct (H2 j ltac:(lia)) as (part' & H3 & H4). exists part'. rewrite lookup_app_l by lia. done. }
  destruct (HF k ltac:(lia)) as (parts & H1 & H2). exists parts. split_and!; try done.
  intros j part Hpart. cbv zeta. rewrite H1. pose proof (lookup_lt_Some _ _ _ Hpart) as Hj.
  destruct (H2 j ltac:(lia)) as (part' & Hp' & Hplen & Hpi). rewrite Hpart in Hp'. injection Hp' as <-.
  rewrite Hplen. split; [lia|]. done.
Qed.

Lemma split_into_cplx {A} (zero : A) (v : dvec A) ts p :
  cplx v p -> ts <> [] -> length p mod length ts = 0 ->
  Forall (fun t => is_complex t = true) ts ->
  (exists ts' e, split_into zero v ts = Done (ts', Err e) /\ resize_all zero ts (2 * (length p / length ts)) = (ts', Err e)) \/
  exists ts' parts, split_into zero v ts = Done (ts', Ok tt) /\ Forall2 same_meta ts ts' /\
    Forall2 cplx ts' parts /\ dealt p parts.
Proof.
  intros [Hc Hv] Hne Hm Hcplx. unfold split_into.
  destruct (vdata_split v _ Hv) as (rest & Hel & Hl). rewrite complex_to_array_length in Hl. unfold len in *. rewrite Hl.
  assert (Hk : 0 < length ts) by (destruct ts; simpl; [done|lia]).
  destruct (length ts =? 0) eqn:E0; [lia|].
  set (k := length ts) in *. set (m := length p / k) in *.
  assert (Hmk : m * k = length p) by (apply div_exact; lia).
  assert (H2m : (2 * length p) mod k = 0). { rewrite <- Hmk. rewrite Nat.mul_assoc. apply Nat.mod_mul. lia. }
  assert (H2d : 2 * length p / k = 2 * m). { rewrite <- Hmk. rewrite Nat.mul_assoc. apply Nat.div_mul. lia. }
  rewrite H2m, H2d. cbn [orb negb Nat.eqb].
  destruct (resize_all zero ts (2 * m)) as [ts' [[]|e]] eqn:Er; [|left; eauto].
  right. rewrite Hc. apply resize_all_Ok in Er. rewrite Hel.
  assert (Hln : length ts' = k) by (symmetry; by eapply Forall2_length).
  assert (Hprop : forall j t0, ts' !! j = Some t0 -> exists t, ts !! j = Some t /\ len t0 = 2 * m /\ same_meta t t0 /\ 2 * m <= length (elems t0)).
  { intros j t0 Ht0. eapply Forall2_lookup_r in Er as (t & Ht & Hr); [|exact Ht0].
    exists t. split; [done|].
    destruct (resize_cases zero t (2 * m)) as [[e He]|(v' & n' & H1 & H2 & H3 & H4 & H5 & H6 & _)].
    - rewrite He in Hr. discriminate.
    - rewrite H1 in Hr. injection Hr as <-. split_and!; try done. }
  destruct (split_loop_cplx k p rest ts') as (ts'' & Hloop & [Hlts Hd]); [lia|lia| |].
  { intros j t0 Ht0. destruct (Hprop _ _ Ht0) as (t & _ & _ & _ & Hme). exists m. lia. }
  assert (2 * length p / 2 = length p) as -> by lia.
  cbv zeta in Hloop |- *. rewrite Hloop, bind_Done.
  assert (Hidx : forall j i, j < k -> i < m -> i * k + j < length p). { intros j i Hj Hi. rewrite <- Hmk. nia. }
  destruct (dealt_parts p k m Hmk) as (parts & Hpl & Hdealt & Hparts).
  exists ts'', parts. split; [done|].
  assert (Hall : forall j t'', ts'' !! j = Some t'' -> exists t part, ts !! j = Some t /\ parts !! j = Some part /\
      same_meta t t'' /\ vdata t'' = Done (complex_to_array part)).
  { intros j t'' Ht''. pose proof (lookup_lt_Some _ _ _ Ht'') as Hj.
    destruct (lookup_lt_is_Some_2 ts' j) as [t0 Ht0]; [lia|].
    destruct (Hprop _ _ Ht0) as (t & Ht & Hlen0 & Hsm & Hme).
    destruct (Hd _ _ Ht0) as (E & HE & HEl & HEq). rewrite Ht'' in HE. injection HE as ->.
    destruct (Hparts j ltac:(lia)) as (part & Hpart & Hplen & Hpi).
    exists t, part. split_and!; try done.
    unfold len in Hlen0. apply (vdata_intro _ _ (drop (2 * m) E)).
    2:{ rewrite complex_to_array_length. unfold set_elems, set_data; cbn [valid_len]. lia. }
    rewrite set_elems_elems. rewrite <- (take_drop (2 * m) E) at 1. f_equal.
    apply list_eq_same_length with (2 * m); [rewrite complex_to_array_length; lia|rewrite take_length, HEl; lia|].
    intros q x y Hi H1 H2. rewrite lookup_take in H1 by done. rewrite HEq in H1.
    pose proof (Nat.div_mod q 2 ltac:(lia)) as Hqm. pose proof (Nat.mod_upper_bound q 2 ltac:(lia)) as Hqb.
    set (i := q / 2) in *. assert (Him : i < m) by lia. clearbody i.
    pose proof (Hidx j i ltac:(lia) Him). specialize (Hpi i Him).
    destruct (i * k + j <? length p) eqn:E1; [|lia].
    pose proof (complex_to_array_lookup part i) as [Ha Hb].
    pose proof (complex_to_array_lookup p (i * k + j)) as [Ha' Hb'].
    destruct (decide (q mod 2 = 0)) as [Hz|Hz].
    - rewrite Hz, Nat.add_0_r in H1. assert (Hq1 : q = 2 * i) by lia. rewrite Hq1 in H2. congruence.
    - assert (q mod 2 = 1) as Hz' by lia. rewrite Hz' in H1. assert (Hq1 : q = 2 * i + 1) by lia. rewrite Hq1 in H2. congruence. }
  split_and!.
  - apply Forall2_same_length_lookup_2; [lia|]. intros j t t'' H1 H2.
    destruct (Hall _ _ H2) as (t1 & part & Ht1 & _ & Hs & _). rewrite H1 in Ht1. injection Ht1 as ->. done.
  - apply Forall2_same_length_lookup_2; [lia|]. intros j t'' part H1 H2.
    destruct (Hall _ _ H1) as (t1 & part' & Ht1 & Hp' & Hs & Hvd). rewrite H2 in Hp'. injection Hp' as ->.
    split; [|done]. destruct Hs as (_ & _ & Hs). unfold is_complex. rewrite Hs.
    rewrite Forall_lookup in Hcplx. apply (Hcplx _ _ Ht1).
  - done.
Qed.

Lemma split_into_bad_length {A} (zero : A) (v : dvec A) ts :
  ts = [] \/ len v mod length ts <> 0 -> split_into zero v ts = Done (ts, Err InvalidArgumentLength).
Proof.
  intros H. unfold split_into. destruct (length ts =? 0) eqn:E; [done|].
  destruct H as [-> |H]; [done|]. apply Nat.eqb_neq in H. by rewrite H.
Qed.

(** ** merge *)

(** [p] is what merging [parts] gives. *)
Lemma merge_loop_real {A} k m (sources : list (dvec A)) parts p d0 :
  0 < k -> length parts = k -> m * k = length p -> Forall2 reals sources parts -> dealt p parts -> length d0 = length p ->
  loop (length d0) 0 (fun i d =>
    s ← rd sources (i mod k);
    let pos := i / k in
    x ← rd (elems s) pos;
    wr d i x) d0 = Done p.
Proof.
  intros Hk Hpl Hmk HF Hd Hd0.
  destruct (loop_inv (fun i d => length d = length p /\ forall j, j < i -> d !! j = p !! j) (length d0) 0
   (fun i d => s ← rd sources (i mod k); let pos := i / k in x ← rd (elems s) pos; wr d i x) d0) as (d & -> & Hl & Hdd).
  - split; [done|]. lia.
  - intros i d Hi [Hl IH].
    pose proof (Nat.mod_upper_bound i k ltac:(lia)) as Hmod.
    pose proof (Forall2_length _ _ _ HF) as Hsl.
    destruct (lookup_lt_is_Some_2 sources (i mod k)) as [s Hs]; [lia|].
    apply rd_Done in Hs as Hs'. rewrite Hs', bind_Done. cbv zeta.
    destruct (Forall2_lookup_l _ _ _ _ _ HF Hs) as (part & Hpart & [Hc Hv]).
    destruct (Hd _ _ Hpart) as [Hpm Hpi]. rewrite Hpl in Hpm, Hpi.
    destruct (vdata_split _ _ Hv) as (r & Hr & _).
    assert (Hik : i / k < length part). { apply Nat.div_lt_upper_bound; lia. }
    specialize (Hpi _ Hik). pose proof (Nat.div_mod i k ltac:(lia)) as Hdm.
    replace (i / k * k + i mod k) with i in Hpi by lia.
    destruct (lookup_lt_is_Some_2 p i) as [x Hx]; [lia|].
    assert (rd (elems s) (i / k) = Done x) as ->. { apply rd_Done. rewrite Hr, lookup_app_l by done. congruence. }
    rewrite bind_Done, wr_Done by lia. eexists; split; [done|]. split; [by rewrite insert_length|].
    intros j Hj. destruct (decide (j = i)) as [-> |]; [by rewrite list_lookup_insert by lia|].
    rewrite list_lookup_insert_ne by done. apply IH. lia.
  - f_equal. apply list_eq_same_length with (length p); [done|done|]. intros j x y Hj. rewrite Hdd by lia. congruence.
Qed.

Lemma merge_loop_cplx {A} k m (sources : list (dvec A)) parts (p : list (A * A)) d0 :
  0 < k -> length parts = k -> m * k = length p -> Forall2 cplx sources parts -> dealt p parts -> 2 * length p <= length d0 ->
  loop (length p) 0 (fun i d =>
    s ← rd sources (i mod k);
    let pos := i / k in
    x ← rd (elems s) (2 * pos);
    d ← wr d (2 * i) x;
    y ← rd (elems s) (2 * pos + 1);
    wr d (2 * i + 1) y) d0 = Done (complex_to_array p ++ drop (2 * length p) d0).
Proof.
  intros Hk Hpl Hmk HF Hd Hd0.
  destruct (loop_inv (fun i d => d = complex_to_array (take i p) ++ drop (2 * i) d0) (length p) 0
   (fun i d => s ← rd sources (i mod k); let pos := i / k in x ← rd (elems s) (2 * pos);
    d ← wr d (2 * i) x; y ← rd (elems s) (2 * pos + 1); wr d (2 * i + 1) y) d0) as (d & -> & Hdd).
  - by rewrite take_0, drop_0.
  - intros i d Hi ->.
    pose proof (Nat.mod_upper_bound i k ltac:(lia)) as Hmod.
    pose proof (Forall2_length _ _ _ HF) as Hsl.
    destruct (lookup_lt_is_Some_2 sources (i mod k)) as [s Hs]; [lia|].
    apply rd_Done in Hs as Hs'. rewrite Hs', bind_Done. cbv zeta.
    destruct (Forall2_lookup_l _ _ _ _ _ HF Hs) as (part & Hpart & [Hc Hv]).
    destruct (Hd _ _ Hpart) as [Hpm Hpi]. rewrite Hpl in Hpm, Hpi.
    destruct (vdata_split _ _ Hv) as (r & Hr & _).
    assert (Hik : i / k < length part). { apply Nat.div_lt_upper_bound; lia. }
    specialize (Hpi _ Hik). pose proof (Nat.div_mod i k ltac:(lia)) as Hdm.
    replace (i / k * k + i mod k) with i in Hpi by lia.
    destruct (lookup_lt_is_Some_2 p i) as [[x y] Hxy]; [lia|].
    pose proof (complex_to_array_lookup part (i / k)) as [Ha Hb]. rewrite Hpi, Hxy in Ha, Hb. cbn in Ha, Hb.
    assert (Hlp : length (complex_to_array part) = 2 * length part) by apply complex_to_array_length.
    assert (rd (elems s) (2 * (i / k)) = Done x) as ->. { apply rd_Done. rewrite Hr, lookup_app_l; [done|lia]. }
    assert (rd (elems s) (2 * (i / k) + 1) = Done y) as ->. { apply rd_Done. rewrite Hr, lookup_app_l; [done|lia]. }
    rewrite !bind_Done.
    assert (HL : length (complex_to_array (take i p)) = 2 * i). { rewrite complex_to_array_length, take_length. lia. }
    rewrite wr_Done by (rewrite app_length, drop_length; lia). rewrite !bind_Done.
    rewrite wr_Done by (rewrite insert_length, app_length, drop_length; lia).
    eexists; split; [done|]. rewrite (take_S_r _ _ _ Hxy) || (replace (i + 1) with (S i) by lia; rewrite (take_S_r _ _ _ Hxy)).
    rewrite complex_to_array_app. cbn [complex_to_array]. rewrite <- app_assoc. cbn [app].
    destruct (drop (2 * i) d0) as [|a [|b q]] eqn:Eq.
    { apply (f_equal length) in Eq. rewrite drop_length in Eq. simpl in Eq. lia. }
    { apply (f_equal length) in Eq. rewrite drop_length in Eq. simpl in Eq. lia. }
    assert (drop (2 * S i) d0 = q) as Hq.
    { replace (2 * S i) with (2 * i + 2) by lia. rewrite <- drop_drop, Eq. done. }
    rewrite Hq. rewrite (insert_app_r_alt _ _ (2 * i)) by lia. rewrite HL, Nat.sub_diag. cbn [insert list_insert].
    rewrite (insert_app_r_alt _ _ (2 * i + 1)) by lia. rewrite HL. replace (2 * i + 1 - 2 * i) with 1 by lia. done.
  - rewrite Hdd. rewrite Nat.add_0_l, take_ge by lia. done.
Qed.

Lemma vmerge_checks {A} (sources : list (dvec A)) m :
  sources <> [] -> Forall (fun s => len s = m) sources ->
  exists s0 rest, sources = s0 :: rest /\ len s0 = m /\ existsb (fun s => negb (len s0 =? len s)) rest = false.
Proof.
  intros Hne HF. destruct sources as [|s0 rest]; [done|]. exists s0, rest. split; [done|].
  inversion HF as [|? ? H1 H2]; subst. split; [done|]. rewrite H1 || idtac.
  clear HF Hne. induction H2 as [|s l Hs _ IH]; [done|]. cbn [existsb]. rewrite Hs, Nat.eqb_refl. simpl. exact IH.
Qed.

Lemma vmerge_real {A} (zero : A) (v : dvec A) sources parts p :
  is_complex v = false -> sources <> [] -> Forall2 reals sources parts -> dealt p parts -> alloc_len v <= length p ->
  (exists e, vmerge zero v sources = Done (v, Err e) /\ resize zero v (length p) = (v, Err e)) \/
  exists v', vmerge zero v sources = Done (v', Ok tt) /\ same_meta v v' /\ reals v' p.
Proof.
  intros Hc Hne HF Hd Hal.
  pose proof (Forall2_length _ _ _ HF) as Hsl.
  set (k := length parts) in *.
  assert (Hk : 0 < k). { destruct sources; [done|]. simpl in Hsl. lia. }
  assert (Hm : exists m, m * k = length p /\ Forall (fun s => len s = m) sources).
  { destruct (lookup_lt_is_Some_2 parts 0) as [p0 Hp0]; [fold k; lia|].
    exists (length p0). split; [apply (Hd _ _ Hp0)|].
    apply Forall_lookup. intros j s Hs. destruct (Forall2_lookup_l _ _ _ _ _ HF Hs) as (part & Hpart & [_ Hv]).
    apply vdata_inv in Hv as (Hv & _). unfold len. rewrite Hv.
    destruct (Hd _ _ Hpart) as [H1 _], (Hd _ _ Hp0) as [H2 _]. fold k in H1, H2. nia. }
  destruct Hm as (m & Hmk & Hms).
  destruct (vmerge_checks sources m Hne Hms) as (s0 & rest & Hs & Hl0 & Hex).
  subst sources. unfold vmerge. cbv zeta iota. rewrite Hex, Hl0, Hsl. fold k. rewrite Hmk.
  destruct (resize zero v (length p)) as [v' [[]|e]] eqn:Er.
  2:{ left. exists e. destruct (resize_cases zero v (length p)) as [[e' He]|(v1 & n1 & H1 & _)]; rewrite Er in *; [|discriminate].
      injection He as -> ->. done. }
  right. destruct (resize_cases zero v (length p)) as [[e' He]|(v1 & n1 & H1 & H2 & H3 & H4 & H5 & H6 & H7 & H8)]; rewrite Er in *; [discriminate|].
  injection H1 as <-. assert (is_complex v' = false) as ->. { unfold is_complex. destruct H3 as (_ & _ & ->). done. }
  assert (Hlen : length (elems v') = length p).
  { rewrite H6, app_length, replicate_length. unfold alloc_len, s_len in *. fold (elems v) in *. fold (elems v') in H4. lia. }
  pose proof (merge_loop_real k m (s0 :: rest) parts p (elems v') Hk eq_refl Hmk HF Hd Hlen) as HL. cbv zeta in HL |- *.
  rewrite HL, bind_Done. eexists; split; [done|]. split; [done|].
  split; [unfold is_complex in *; destruct H3 as (_ & _ & H3); simpl; rewrite H3; done|].
  eapply (vdata_intro _ _ []); [by rewrite set_elems_elems, app_nil_r|]. done.
Qed.

Lemma vmerge_cplx {A} (zero : A) (v : dvec A) sources parts p :
  is_complex v = true -> sources <> [] -> Forall2 cplx sources parts -> dealt p parts ->
  (exists e, vmerge zero v sources = Done (v, Err e) /\ resize zero v (2 * length p) = (v, Err e)) \/
  exists v', vmerge zero v sources = Done (v', Ok tt) /\ same_meta v v' /\ cplx v' p.
Proof.
  intros Hc Hne HF Hd.
  pose proof (Forall2_length _ _ _ HF) as Hsl.
  set (k := length parts) in *.
  assert (Hk : 0 < k). { destruct sources; [done|]. simpl in Hsl. lia. }
  assert (Hm : exists m, m * k = length p /\ Forall (fun s => len s = 2 * m) sources).
  { destruct (lookup_lt_is_Some_2 parts 0) as [p0 Hp0]; [fold k; lia|].
    exists (length p0). split; [apply (Hd _ _ Hp0)|].
    apply Forall_lookup. intros j s Hs. destruct (Forall2_lookup_l _ _ _ _ _ HF Hs) as (part & Hpart & [_ Hv]).
    apply vdata_inv in Hv as (Hv & _). unfold len. rewrite Hv, complex_to_array_length.
    destruct (Hd _ _ Hpart) as [H1 _], (Hd _ _ Hp0) as [H2 _]. fold k in H1, H2. nia. }
  destruct Hm as (m & Hmk & Hms).
  destruct (vmerge_checks sources (2 * m) Hne Hms) as (s0 & rest & Hs & Hl0 & Hex).
  subst sources. unfold vmerge. cbv zeta iota. rewrite Hex, Hl0, Hsl. fold k.
  assert (2 * m * k = 2 * length p) as -> by lia.
  destruct (resize zero v (2 * length p)) as [v' [[]|e]] eqn:Er.
  2:{ left. exists e. destruct (resize_cases zero v (2 * length p)) as [[e' He]|(v1 & n1 & H1 & _)]; rewrite Er in *; [|discriminate].
      injection He as -> ->. done. }
  right. destruct (resize_cases zero v (2 * length p)) as [[e' He]|(v1 & n1 & H1 & H2 & H3 & H4 & H5 & H6 & H7 & H8)]; rewrite Er in *; [discriminate|].
  injection H1 as <-. assert (is_complex v' = true) as Hc'. { unfold is_complex. destruct H3 as (_ & _ & ->). done. }
  rewrite Hc', H2. assert (2 * length p / 2 = length p) as -> by lia.
  unfold alloc_len, s_len in H4. fold (elems v') in H4.
  pose proof (merge_loop_cplx k m (s0 :: rest) parts p (elems v') Hk eq_refl Hmk HF Hd H4) as HL. cbv zeta in HL |- *.
  rewrite HL, bind_Done. eexists; split; [done|]. split; [done|].
  split; [done|].
  eapply vdata_intro; [by rewrite set_elems_elems|]. rewrite complex_to_array_length. done.
Qed.

Lemma vmerge_mismatch {A} (zero : A) (v : dvec A) sources :
  sources = [] \/ (exists s s', s ∈ sources /\ s' ∈ sources /\ len s <> len s') ->
  vmerge zero v sources = Done (v, Err InvalidArgumentLength).
Proof.
  intros H. unfold vmerge. destruct sources as [|s0 rest]; [done|].
  destruct (existsb (fun s => negb (len s0 =? len s)) rest) eqn:E; [done|].
  exfalso. destruct H as [|(s & s' & H1 & H2 & H3)]; [done|].
  assert (Hall : forall s, s ∈ s0 :: rest -> len s = len s0).
  { intros t Ht. apply elem_of_cons in Ht as [-> |Ht]; [done|].
    assert (Hx : negb (len s0 =? len t) = false).
    { destruct (negb (len s0 =? len t)) eqn:E2; [|done]. rewrite <- E. symmetry. apply existsb_exists. exists t.
      split; [by apply elem_of_list_In|done]. }
    apply negb_false_iff, Nat.eqb_eq in Hx. done. }
  rewrite (Hall s), (Hall s') in H3; done.
Qed.
