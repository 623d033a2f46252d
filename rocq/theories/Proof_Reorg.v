From Verif Require Export Proof_Vec.

(** ** Operations on the valid part *)

Lemma on_valid_real_spec {A} (v : dvec A) l l' f :
  vdata v = Done l -> f l = Done l' -> length l' = length l ->
  exists v', on_valid_real v f = Done v' /\ vdata v' = Done l' /\ same_meta v v' /\ same_rest v v'.
Proof.
  intros Hv Hf Hl. pose proof Hv as Hv2. unfold vdata in Hv2. unfold on_valid_real, len. rewrite Hv2. simpl. rewrite Hf. simpl.
  apply vdata_split in Hv as (r & Hr & Hn).
  rewrite Hr, splice_Done by (rewrite app_length; lia). simpl.
  eexists; split; [done|].
  rewrite Hl, drop_app. split_and!; try done.
  - eapply vdata_intro; [done|]. simpl. lia.
  - unfold same_rest. split_and!; try done. rewrite Hr, Hn, drop_app, <- Hl. apply drop_app.
Qed.

Lemma on_valid_complex_spec {A} (v : dvec A) c c' f :
  vdata v = Done (complex_to_array c) -> f c = Done c' -> length c' = length c ->
  exists v', on_valid_complex v f = Done v' /\ vdata v' = Done (complex_to_array c') /\ same_meta v v' /\ same_rest v v'.
Proof.
  intros Hv Hf Hl.
  destruct (on_valid_real_spec v _ (complex_to_array c') (fun _ => Done (complex_to_array c')) Hv eq_refl) as (v' & H1 & H2 & H3 & H4).
  { rewrite !complex_to_array_length. lia. }
  exists v'. split; [|done]. rewrite <- H1. unfold on_valid_complex, on_valid_real, len.
  unfold vdata in Hv. rewrite Hv. simpl. rewrite array_to_complex_Done. simpl. by rewrite Hf.
Qed.

Lemma same_meta_complex {A} (v v' : dvec A) : same_meta v v' -> is_complex v' = is_complex v.
Proof. intros (_ & _ & H). unfold is_complex. by rewrite H. Qed.

(** ** swap of two elements *)

Lemma swap_elems_spec {A} (d : list A) i j :
  i < length d -> j < length d ->
  exists d', swap_elems d i j = Done d' /\ length d' = length d /\
    forall k, d' !! k = if decide (k = j) then d !! i else if decide (k = i) then d !! j else d !! k.
Proof.
  intros Hi Hj. unfold swap_elems.
  destruct (rd_lt d i Hi) as (x & Hx & ->). simpl.
  destruct (rd_lt d j Hj) as (y & Hy & ->). simpl.
  rewrite wr_Done by done. simpl. rewrite wr_Done by (by rewrite insert_length). eexists; split; [done|].
  rewrite !insert_length. split; [done|]. intros k.
  destruct (decide (k = j)) as [->|].
  - rewrite list_lookup_insert by (by rewrite insert_length). done.
  - rewrite list_lookup_insert_ne by done. destruct (decide (k = i)) as [->|].
    + by rewrite list_lookup_insert.
    + by rewrite list_lookup_insert_ne.
Qed.

(** ** reverse *)

Lemma rev_lookup {A} (l : list A) i : i < length l -> rev l !! i = l !! (length l - 1 - i).
Proof.
  intros H. assert (E : rev l = reverse l). { unfold reverse. by rewrite rev_alt. }
  rewrite E, reverse_lookup by done. f_equal. lia.
Qed.

Lemma reverse_array_spec {A} (d : list A) : reverse_array d = Done (rev d).
Proof.
  unfold reverse_array. set (n := length d).
  destruct (loop_inv (fun i d' => length d' = n /\ forall k, d' !! k = if (k <? i) || ((n - i <=? k) && (k <? n)) then d !! (n - 1 - k) else d !! k)
     (Nat.min ((n + 1) / 2) (n - (n + 1) / 2)) 0
     (fun i d => n1 ← usub n 1; j ← usub n1 i; swap_elems d i j) d) as (d' & -> & Hlen & Hd').
  - split; [done|]. intros k. destruct ((k <? 0) || ((n - 0 <=? k) && (k <? n))) eqn:E; [lia | done].
  - intros i d1 Hi [Hl Hk]. rewrite usub_Done by lia. simpl. rewrite usub_Done by lia. simpl.
    destruct (swap_elems_spec d1 i (n - 1 - i)) as (d2 & -> & Hl2 & Hk2); [lia..|].
    exists d2. split; [done|]. split; [lia|]. intros k. rewrite Hk2, !Hk.
    destruct (decide (k = n - 1 - i)) as [->|].
    { destruct ((i <? i) || ((n - i <=? i) && (i <? n))) eqn:E1; [lia|].
      destruct ((n - 1 - i <? i + 1) || ((n - (i + 1) <=? n - 1 - i) && (n - 1 - i <? n))) eqn:E2; [|lia].
      f_equal. lia. }
    destruct (decide (k = i)) as [->|].
    { destruct ((n - 1 - i <? i) || ((n - i <=? n - 1 - i) && (n - 1 - i <? n))) eqn:E1; [lia|].
      destruct ((i <? i + 1) || ((n - (i + 1) <=? i) && (i <? n))) eqn:E2; [done|lia]. }
    destruct ((k <? i) || ((n - i <=? k) && (k <? n))) eqn:E1;
    destruct ((k <? i + 1) || ((n - (i + 1) <=? k) && (k <? n))) eqn:E2; try done; lia.
  - f_equal. apply list_eq. intros k. rewrite Hd'. destruct (decide (k < n)).
    + rewrite rev_lookup by done. fold n.
      destruct ((k <? 0 + Nat.min ((n + 1) / 2) (n - (n + 1) / 2)) || ((n - (0 + Nat.min ((n + 1) / 2) (n - (n + 1) / 2)) <=? k) && (k <? n))) eqn:E1; [done|].
      f_equal. lia.
    + rewrite (lookup_ge_None_2 (rev d)) by (rewrite rev_length; fold n; lia).
      destruct (_ || _) eqn:E; [|apply lookup_ge_None_2; fold n; lia]. lia.
Qed.

Lemma vreverse_real {A} (v : dvec A) l : reals v l ->
  exists v', vreverse v = Done v' /\ reals v' (rev l) /\ same_meta v v' /\ same_rest v v'.
Proof.
  intros [Hc Hv]. unfold vreverse. rewrite Hc.
  destruct (on_valid_real_spec v l (rev l) reverse_array Hv (reverse_array_spec l) (rev_length l)) as (v' & -> & H1 & H2 & H3).
  exists v'. split_and!; try done. split; [|done]. by rewrite (same_meta_complex v v').
Qed.

Lemma vreverse_cplx {A} (v : dvec A) c : cplx v c ->
  exists v', vreverse v = Done v' /\ cplx v' (rev c) /\ same_meta v v' /\ same_rest v v'.
Proof.
  intros [Hc Hv]. unfold vreverse. rewrite Hc.
  destruct (on_valid_complex_spec v c (rev c) reverse_array Hv (reverse_array_spec c) (rev_length c)) as (v' & -> & H1 & H2 & H3).
  exists v'. split_and!; try done. split; [|done]. by rewrite (same_meta_complex v v').
Qed.

(** ** swap_halves *)

Lemma nat_mod_eq (a b n : nat) : n <> 0 ->
  a mod n = b mod n <-> exists k : Z, (Z.of_nat a - Z.of_nat b = k * Z.of_nat n)%Z.
Proof.
  intros Hn. split.
  - intros H. exists (Z.of_nat (a / n) - Z.of_nat (b / n))%Z.
    pose proof (Nat.div_mod a n Hn). pose proof (Nat.div_mod b n Hn). nia.
  - intros [k Hk]. apply Nat2Z.inj. rewrite !Nat2Z.inj_mod.
    replace (Z.of_nat a) with (Z.of_nat b + k * Z.of_nat n)%Z by lia. apply Z_mod_plus_full.
Qed.

Lemma walk_inj n s j j' (o : Z) :
  (2 * Z.of_nat s = o * Z.of_nat n + 1 \/ 2 * Z.of_nat s = o * Z.of_nat n - 1)%Z ->
  j < n -> j' < n -> (j * s) mod n = (j' * s) mod n -> j = j'.
Proof.
  intros Hs Hj Hj' H. apply nat_mod_eq in H as [k Hk]; [|lia].
  rewrite !Nat2Z.inj_mul in Hk.
  assert (exists m : Z, (Z.of_nat j - Z.of_nat j' = m * Z.of_nat n)%Z) as [m Hm].
  { destruct Hs as [Hs|Hs].
    - exists (2 * k - (Z.of_nat j - Z.of_nat j') * o)%Z. nia.
    - exists ((Z.of_nat j - Z.of_nat j') * o - 2 * k)%Z. nia. }
  assert (m = 0)%Z by nia. subst m. lia.
Qed.

Lemma walk_surj n s i (o : Z) :
  (2 * Z.of_nat s = o * Z.of_nat n + 1 \/ 2 * Z.of_nat s = o * Z.of_nat n - 1)%Z ->
  i < n -> exists j, j < n /\ (j * s) mod n = i.
Proof.
  intros [Hs|Hs] Hi.
  - exists ((2 * i) mod n). split; [lia|].
    rewrite <- (Nat.mod_small i n Hi) at 2. apply nat_mod_eq; [lia|].
    rewrite Nat2Z.inj_mul, Nat2Z.inj_mod.
    pose proof (Z.div_mod (Z.of_nat (2 * i)) (Z.of_nat n) ltac:(lia)) as Hd.
    exists (Z.of_nat i * o - Z.of_nat (2 * i) / Z.of_nat n * Z.of_nat s)%Z. nia.
  - exists ((2 * (n - i)) mod n). split; [lia|].
    rewrite <- (Nat.mod_small i n Hi) at 2. apply nat_mod_eq; [lia|].
    rewrite Nat2Z.inj_mul, Nat2Z.inj_mod.
    pose proof (Z.div_mod (Z.of_nat (2 * (n - i))) (Z.of_nat n) ltac:(lia)) as Hd.
    exists (Z.of_nat (n - i) * o - Z.of_nat (2 * (n - i)) / Z.of_nat n * Z.of_nat s - 1)%Z. nia.
Qed.

Lemma swap_array_halves_spec {A} (d : list A) fwd :
  fwd = true \/ length d <> 1 ->
  exists d', swap_array_halves d fwd = Done d' /\
    rotated_by (if fwd then length d / 2 else length d - length d / 2) d d'.
Proof.
  intros Hne. unfold swap_array_halves. set (n := length d) in *.
  destruct (Nat.even n) eqn:Ev.
  - assert (Hn : n = 2 * (n / 2)).
    { apply Nat.even_spec in Ev as [m Hm]. lia. }
    set (h := n / 2) in *.
    destruct (loop_inv (fun i d' => length d' = n /\
       forall k, d' !! k = if k <? i then d !! (h + k) else if (h <=? k) && (k <? h + i) then d !! (k - h) else d !! k)
       h 0 (fun i d => swap_elems d i (h + i)) d) as (d' & -> & Hl & Hd').
    + split; [done|]. intros k. destruct (k <? 0) eqn:E1; [lia|].
      destruct ((h <=? k) && (k <? h + 0)) eqn:E2; [lia | done].
    + intros i d1 Hi [Hl Hk].
      destruct (swap_elems_spec d1 i (h + i)) as (d2 & -> & Hl2 & Hk2); [lia..|].
      exists d2. split; [done|]. split; [lia|]. intros k. rewrite Hk2, !Hk.
      destruct (decide (k = h + i)) as [->|].
      { destruct (i <? i) eqn:E1; [lia|]. destruct ((h <=? i) && (i <? h + i)) eqn:E2; [lia|].
        destruct (h + i <? i + 1) eqn:E3; [lia|].
        destruct ((h <=? h + i) && (h + i <? h + (i + 1))) eqn:E4; [|lia]. f_equal. lia. }
      destruct (decide (k = i)) as [->|].
      { destruct (h + i <? i) eqn:E1; [lia|]. destruct ((h <=? h + i) && (h + i <? h + i)) eqn:E2; [lia|].
        destruct (i <? i + 1) eqn:E3; [done|lia]. }
      destruct (k <? i) eqn:E1; destruct (k <? i + 1) eqn:E2; try done; try lia.
      destruct ((h <=? k) && (k <? h + i)) eqn:E3; destruct ((h <=? k) && (k <? h + (i + 1))) eqn:E4; try done; lia.
    + exists d'. split; [done|]. replace (if fwd then h else n - h) with h by (destruct fwd; lia).
      split; [done|]. fold n. intros i Hi. rewrite Hd'.
      destruct (decide (i < h)).
      * rewrite (Nat.mod_small (i + h)) by lia.
        destruct (i + h <? 0 + h) eqn:E1; [lia|]. destruct ((h <=? i + h) && (i + h <? h + (0 + h))) eqn:E2; [|lia].
        f_equal. lia.
      * replace ((i + h) mod n) with (i - h).
        2:{ rewrite Hn at 1. replace (i + h) with ((i - h) + 1 * (2 * h)) by lia.
            rewrite Nat.mod_add, Nat.mod_small by lia. done. }
        destruct (i - h <? 0 + h) eqn:E1; [|lia]. f_equal. lia.
  - cbv zeta. set (s := if fwd then n / 2 else n / 2 + 1).
    assert (Hodd : n = 2 * (n / 2) + 1).
    { assert (Nat.odd n = true) as Ho by (rewrite <- Nat.negb_even, Ev; done).
      apply Nat.odd_spec in Ho as [m Hm]. lia. }
    assert (Hs : (2 * Z.of_nat s = 1 * Z.of_nat n + 1 \/ 2 * Z.of_nat s = 1 * Z.of_nat n - 1)%Z).
    { unfold s. destruct fwd; lia. }
    replace (if fwd then n / 2 else n - n / 2) with s by (unfold s; destruct fwd; lia).
    assert (Hn : 0 < n) by lia.
    destruct (rd_lt d 0 Hn) as (x0 & Hx0 & ->). rewrite ?bind_Done.
    destruct (loop_inv (fun t '(d', temp, pos) =>
       length d' = n /\ pos = ((t + 1) * s) mod n /\ d !! ((t * s) mod n) = Some temp /\
       (forall j, t < j < n -> d' !! ((j * s) mod n) = d !! ((j * s) mod n)) /\
       (t < n -> d' !! 0 = d !! 0) /\
       (forall j, 1 <= j <= t -> d' !! ((j * s) mod n) = d !! (((j - 1) * s) mod n)))
       n 0 (fun _ '(d, temp, pos) =>
           x ← rd d pos;
           d ← wr d pos temp;
           Done (d, x, (pos + s) mod n)) (d, x0, s)) as ([[d' temp] pos] & -> & Hl & _ & _ & _ & _ & Hd').
    + split_and!; try done.
      * rewrite Nat.add_0_l, Nat.mul_1_l, Nat.mod_small; [done|]. unfold s. destruct Hne; [subst fwd; lia|]. destruct fwd; lia.
      * rewrite Nat.mul_0_l, Nat.mod_0_l by lia. done.
      * intros j Hj. lia.
    + intros t [[d1 temp] pos] Ht (Hl & Hpos & Htemp & Hun & H0 & Hvis).
      assert (Hplt : pos < n) by (rewrite Hpos; apply Nat.mod_upper_bound; lia).
      assert (Hrd : d1 !! pos = d !! pos).
      { rewrite Hpos. destruct (decide (t + 1 < n)).
        - apply Hun. lia.
        - replace (t + 1) with n by lia. rewrite Nat.mul_comm, Nat.mod_mul by lia. apply H0. lia. }
      destruct (rd_lt d1 pos) as (x & Hx & ->); [lia|]. rewrite ?bind_Done.
      rewrite wr_Done by lia. rewrite ?bind_Done. eexists; split; [reflexivity|]. cbv beta iota.
      split_and!.
      * by rewrite insert_length.
      * rewrite Hpos. rewrite Nat.add_mod_idemp_l by lia. f_equal. lia.
      * rewrite <- Hpos. congruence.
      * intros j Hj. rewrite list_lookup_insert_ne; [apply Hun; lia|]. rewrite Hpos. intros Heq.
        assert (t + 1 = j); [|lia]. eapply walk_inj; [exact Hs|lia|lia|done].
      * intros Ht'. rewrite list_lookup_insert_ne; [apply H0; lia|]. rewrite Hpos. intros Heq.
        assert (t + 1 = 0); [|lia]. eapply walk_inj; [exact Hs|lia|lia|]. rewrite Heq.
        rewrite Nat.mul_0_l, Nat.mod_0_l by lia. done.
      * intros j Hj. destruct (decide (j = t + 1)) as [->|].
        -- rewrite <- Hpos, list_lookup_insert by lia. replace (t + 1 - 1) with t by lia. done.
        -- rewrite list_lookup_insert_ne; [apply Hvis; lia|]. rewrite Hpos. intros Heq.
           destruct (decide (t + 1 = n)) as [E|].
           ++ rewrite E in Heq. rewrite Nat.mul_comm, Nat.mod_mul in Heq by lia.
              assert (0 = j); [|lia]. eapply walk_inj; [exact Hs|lia|lia|].
              rewrite Nat.mul_0_l, Nat.mod_0_l by lia. done.
           ++ assert (t + 1 = j); [|lia]. eapply walk_inj; [exact Hs|lia|lia|done].
    + rewrite bind_Done; cbn [fst]. exists d'. split; [done|]. split; [done|]. fold n. intros i Hi.
      destruct (walk_surj n s i 1 Hs Hi) as (j & Hj & Hji).
      specialize (Hd' (j + 1)). replace (j + 1 - 1) with j in Hd' by lia. rewrite Hji in Hd'.
      rewrite <- Hd' by lia. f_equal. rewrite <- Hji. rewrite Nat.add_mod_idemp_l by lia. f_equal. lia.
Qed.

Lemma rotated_nil {A} k : rotated_by k (@nil A) [].
Proof. split; [done|]. simpl. intros; lia. Qed.

Lemma swap_halves_priv_real {A} (v : dvec A) l fwd : reals v l -> fwd = true \/ length l <> 1 ->
  exists v' l', swap_halves_priv v fwd = Done v' /\ reals v' l' /\
    rotated_by (if fwd then length l / 2 else length l - length l / 2) l l' /\ same_meta v v' /\ same_rest v v'.
Proof.
  intros [Hc Hv] Hne. unfold swap_halves_priv. rewrite Hc.
  pose proof (vdata_inv _ _ Hv) as (Hn & _).
  destruct (len v =? 0) eqn:E.
  { exists v, l. unfold len in E. assert (length l = 0) as E' by lia. apply nil_length_inv in E'. subst l.
    split_and!; try done; apply rotated_nil. }
  destruct (swap_array_halves_spec l fwd Hne) as (l' & Hs & Hrot).
  destruct (on_valid_real_spec v l l' (fun d => swap_array_halves d fwd) Hv Hs (proj1 Hrot)) as (v' & -> & H1 & H2 & H3).
  exists v', l'. split_and!; try done. split; [|done]. by rewrite (same_meta_complex v v').
Qed.

Lemma swap_halves_priv_cplx {A} (v : dvec A) l fwd : cplx v l -> fwd = true \/ length l <> 1 ->
  exists v' l', swap_halves_priv v fwd = Done v' /\ cplx v' l' /\
    rotated_by (if fwd then length l / 2 else length l - length l / 2) l l' /\ same_meta v v' /\ same_rest v v'.
Proof.
  intros [Hc Hv] Hne. unfold swap_halves_priv. rewrite Hc.
  pose proof (vdata_inv _ _ Hv) as (Hn & _). rewrite complex_to_array_length in Hn.
  destruct (len v =? 0) eqn:E.
  { exists v, l. unfold len in E. assert (length l = 0) as E' by lia. apply nil_length_inv in E'. subst l.
    split_and!; try done; apply rotated_nil. }
  destruct (swap_array_halves_spec l fwd Hne) as (l' & Hs & Hrot).
  destruct (on_valid_complex_spec v l l' (fun d => swap_array_halves d fwd) Hv Hs (proj1 Hrot)) as (v' & -> & H1 & H2 & H3).
  exists v', l'. split_and!; try done. split; [|done]. by rewrite (same_meta_complex v v').
Qed.

Lemma rotated_compose {A} j k (l l' l'' : list A) :
  rotated_by j l l' -> rotated_by k l' l'' -> (j + k) mod length l = 0 \/ l = [] -> l'' = l.
Proof.
  intros [H1 H2] [H3 H4] [H| ->].
  2:{ simpl in *. apply nil_length_inv. lia. }
  destruct (decide (length l = 0)) as [E|E].
  { apply nil_length_inv in E. subst l. apply nil_length_inv. simpl in *. lia. }
  apply list_eq. intros i. destruct (decide (i < length l)) as [Hi|Hi].
  2:{ rewrite !lookup_ge_None_2 by lia. done. }
  rewrite <- H2 by done. rewrite <- (H4 ((i + j) mod length l)) by (rewrite H1; apply Nat.mod_upper_bound; lia).
  rewrite H1. f_equal. rewrite Nat.add_mod_idemp_l by lia. rewrite <- Nat.add_assoc.
  rewrite Nat.add_mod, H, Nat.add_0_r by lia. rewrite Nat.mod_mod, Nat.mod_small by lia. done.
Qed.
