(** SIMD conversions, getters, setters and [to_complex]. *)
From Verif Require Export Proof_Complex.

Section conv.
Context {A : Type} `{Num A} `{Flt A}.

(** What registers have to do for this to work *)
Definition halves (w : nat) (reg_op : list A -> list A) (op : A * A -> A) : Prop :=
  forall b, length b = w -> take (w / 2) (reg_op b) = map op (pairs_of b).

Lemma halves_pairs w (op : A * A -> A) : halves w (fun b => map op (pairs_of b)) op.
Proof. intros b Hb. apply take_ge. by rewrite map_length, pairs_of_length, Hb. Qed.

Theorem simd_b_spec (reg_op : list A -> list A) (op : A * A -> A) r addr s sched b (v : dvec A) c :
  reg_ok r -> elem_aligned r addr -> cplx v c -> typed v -> address_ok r addr v -> lends b v (length c) -> halves (reg_len r) reg_op op ->
  exists v' b', complex_to_real_simd_b reg_op op r addr s sched b v = Done (v', b') /\ reals v' (map op c) /\ converted v v'.
Proof.
  intros Hr Ha Hvc Ht Hok Hb Hop. pose proof (address_ok_cplx r addr v c Hvc Hok) as Hf. destruct Hvc as [Hc Hv].
  destruct (vdata_split v _ Hv) as (rest & He & Hn). unfold complex_to_real_simd_b. rewrite Hc. simpl negb. cbv iota.
  unfold simd_complex_to_real_operation. rewrite Hn, complex_to_array_length, div2_double.
  destruct (borrow_lends n0 b v (length c) Hb) as (T & -> & HT). rewrite bind_Done.
  destruct (alignment_halves r addr (length c) Hr Ha Hf) as
    (part & from & to & rfrom & rto & ml & mc & mr & -> & Hcr & Hrcr & Hsum & Hpl & Hpleft & Hpright & Hal & Hm & Hcut & Hccut & Htgt).
  rewrite bind_Done. rewrite He. assert (Hsl : slice (complex_to_array c ++ rest) 0 (2 * length c) = Done (complex_to_array c))
    by (apply slice_pre'; by rewrite complex_to_array_length).
  rewrite Hsl, bind_Done, Hcr, bind_Done.
  destruct (cut3 c ml mc mr Hsum) as (L & C & R & -> & HL & HC & HR).
  destruct (cut3 T ml mc mr ltac:(lia)) as (TL & TC & TR & -> & HTL & HTC & HTR).
  rewrite (Hcut A L C R rest HL HC HR), bind_Done, Hrcr, bind_Done.
  destruct (Htgt A TL TC TR HTL HTC HTR) as [-> Hspl]. rewrite bind_Done, from_src_to_dest_small, run_steps_cons.
  pose proof (slice_pre (complex_to_array C) []) as HsC. rewrite app_nil_r in HsC. cbn [fst snd].
  rewrite HsC, bind_Done. rewrite complex_to_array_length.
  assert (Hchk : regs_check r (addr + (from + 0) * elem_size r) (2 * length C - 0) = true).
  { rewrite Nat.add_0_r, Nat.sub_0_r. destruct (decide (mc = 0)) as [E|E]; [unfold regs_check; rewrite HC, E; done|].
    apply regs_check_true; [by apply Hal | by rewrite HC]. }
  rewrite Hchk. cbn [assert_]. rewrite bind_Done, bind_Done.
  rewrite (half_center (reg_len r) reg_op op C TC); [|by destruct Hr as (_ & ? & _) | by destruct Hr as (_ & _ & ?) | exact Hop | by rewrite HC | lia].
  rewrite bind_Done. rewrite Hspl by (rewrite map_length; lia). rewrite bind_Done, bind_Done.
  rewrite array_to_complex_Done, bind_Done. pose proof (Hccut (A * A)%type L C R [] HL HC HR) as Hce. rewrite app_nil_r in Hce.
  rewrite Hce, bind_Done. rewrite Hpl, Hpleft, Hpright. pose proof (slice_pre (TL ++ map op C ++ TR) []) as HsT. rewrite app_nil_r in HsT.
  replace (length (L ++ C ++ R)) with (length (TL ++ map op C ++ TR)) by (rewrite !app_length, map_length; lia).
  rewrite HsT, bind_Done. rewrite <- HTL, <- HTR.
  replace (length (TL ++ map op C ++ TR)) with (length TL + length (map op C) + length TR) by (rewrite !app_length; lia).
  rewrite edge_update_zip_spec by lia. rewrite bind_Done.
  assert (Hz : forall (B : Type) (t : list B) (l : list (A * A)), length t = length l -> zip_with (fun _ x => op x) t l = map op l).
  { intros B t. induction t as [|y t IH]; intros [|x l] Hl; try done. simpl. f_equal. apply IH. by injection Hl. }
  rewrite !Hz by lia. rewrite <- !map_app.
  rewrite splice_Done by (rewrite !map_length, !app_length, map_length; lia). rewrite bind_Done, take_0, app_nil_l.
  rewrite drop_ge, app_nil_r by (rewrite !map_length, !app_length, map_length; lia).
  set (cc := L ++ C ++ R) in *. assert (Hlcc : length TL + length (map op C) + length TR = length cc) by (unfold cc; rewrite !app_length, map_length; lia).
  rewrite Hlcc. clearbody cc.
  destruct (trade_vdata b v (map op cc) (length cc) Hb (map_length _ _)) as (w & b' & Hw & Hwd & Hwm).
  destruct (trade b (map op cc) (data v)) as [st b2] eqn:Et. injection Hw as Hw1 Hw2. rewrite bind_Done. cbv beta iota.
  change (set_data (set_valid_len v (length cc)) st) with (set_valid_len (set_data v st) (length cc)). rewrite Hw1.
  destruct Hwm as (Hm1 & Hm2 & Hm3). destruct (converted_real v w Ht Hm1 Hm2 Hm3) as [H1 H2].
  eexists _, _. split; [reflexivity|]. split; [split; [done|] | done]. by rewrite vdata_to_real.
Qed.

(** ** Getters *)
Lemma resize_takes (v : dvec A) n : takes v n ->
  exists v', Model_Vec.resize n0 v n = (v', Ok tt) /\ len v' = n /\ is_complex v' = false /\ same_meta v v' /\ n <= alloc_len v'.
Proof.
  intros (Hc & Hs & Hh). destruct (Model_Vec.resize n0 v n) as [v' r] eqn:E.
  destruct (resize_complete n0 v v' n r Hs E) as (H1 & H2 & _ & H4 & H5).
  assert (r = Ok tt) as ->.
  { destruct H5 as [|[->| ->]]; [done| |].
    - destruct (proj1 H1 eq_refl) as [? ?]. congruence.
    - by destruct (proj1 H2 eq_refl) as [_ ?]. }
  destruct (H4 eq_refl) as (L1 & L2 & L3 & _). exists v'. split_and!; try done. destruct L2 as (_ & _ & Hn). unfold is_complex in *. by rewrite Hn.
Qed.
Lemma resize_within (v : dvec A) n : is_complex v = false -> n <= alloc_len v -> Model_Vec.resize n0 v n = (set_valid_len v n, Ok tt).
Proof.
  intros Hc Hl. unfold Model_Vec.resize. rewrite Hc. simpl andb. cbv iota. by rewrite (proj2 (Nat.ltb_ge _ _) Hl).
Qed.
Lemma vdata_within (v : dvec A) n : n <= alloc_len v -> exists l, vdata (set_valid_len v n) = Done l /\ length l = n.
Proof.
  intros Hl. unfold alloc_len, s_len in Hl. fold (elems v) in Hl. unfold vdata. simpl. change (elems (set_valid_len v n)) with (elems v).
  exists (take n (elems v)). rewrite slice_Done by lia. rewrite drop_0, Nat.sub_0_r, take_length. split; [done|lia].
Qed.

Lemma rd_pair (c : list (A * A)) j a b : c !! j = Some (a, b) ->
  rd (complex_to_array c) (2 * j) = Done a /\ rd (complex_to_array c) (2 * j + 1) = Done b.
Proof. intros E. destruct (complex_to_array_lookup c j) as [H1 H2]. rewrite E in H1, H2. split; by apply rd_Done. Qed.
Lemma pairs_fill (op : A * A -> A) (c : list (A * A)) (t : list A) : length t = length c ->
  run_steps (map (fun j t => x ← rd (complex_to_array c) (2 * j); y ← rd (complex_to_array c) (2 * j + 1); wr t j (op (x, y))) (seq 0 (length c))) t =
  Done (map op c).
Proof.
  intros Ht. rewrite <- (map_length op c). apply fill_steps; [by rewrite map_length|].
  intros j x t' Hj. rewrite list_lookup_fmap in Hj. destruct (c !! j) as [[a b]|] eqn:E; [|done]. injection Hj as <-.
  destruct (rd_pair c j a b E) as [-> ->]. by rewrite !bind_Done.
Qed.

(** What every getter leaves in its target *)
Definition got (v : dvec A) (l : list A) (dst dst' : dvec A) : Prop :=
  reals dst' l /\ delta dst' = delta v /\ domain dst' = domain dst /\ number_space dst' = number_space dst.

Theorem get_into_spec (op : A * A -> A) s sched (v dst : dvec A) c : cplx v c -> takes dst (len v) ->
  exists dst', get_into (pure_into_target op s sched) v dst = Done dst' /\ got v (map op c) dst dst'.
Proof.
  intros [Hc Hv] Ht. destruct (vdata_split v _ Hv) as (rest & He & Hn). destruct (resize_takes dst (len v) Ht) as (d1 & H1 & Hl1 & Hc1 & Hm1 & Ha1).
  unfold get_into. rewrite Hc. destruct Ht as (Hcd & _ & _). rewrite Hcd. simpl. rewrite H1. unfold pure_into_target.
  assert (Hn' : len v = 2 * length c) by (unfold len; rewrite Hn, complex_to_array_length; done).
  rewrite Hn' in Ha1. rewrite Hn', div2_double. rewrite resize_within by (done || lia).
  destruct (vdata_within d1 (length c)) as (t & Hvt & Hlt); [lia|].
  change (vdata (set_delta (set_valid_len d1 (length c)) (delta v))) with (vdata (set_valid_len d1 (length c))). rewrite Hvt, bind_Done.
  rewrite (slice_Done t) by lia. rewrite bind_Done, He. rewrite slice_pre' by (by rewrite complex_to_array_length). rewrite bind_Done.
  rewrite drop_0, take_ge by lia. rewrite from_src_to_dest_small. cbn [fst]. rewrite Hlt.
  setoid_rewrite pairs_fill; [|done]. rewrite bind_Done.
  destruct (vdata_splice (set_delta (set_valid_len d1 (length c)) (delta v)) t (map op c) Hvt ltac:(rewrite map_length; lia))
    as (w & -> & Hw & (Hw1 & Hw2 & Hw3) & _).
  exists w. split; [done|]. destruct Hm1 as (M1 & M2 & M3). split_and!; try (rewrite ?Hw1, ?Hw2, ?Hw3; simpl; congruence).
  split; [|done]. unfold is_complex in *. rewrite Hw3. simpl. done.
Qed.

Theorem get_into_mismatch (body : dvec A -> dvec A -> run (dvec A)) (v dst : dvec A) : is_complex v = false \/ is_complex dst = true ->
  exists dst', get_into body v dst = Done dst' /\ len dst' = 0 /\ same_meta dst dst' /\ elems dst' = elems dst.
Proof.
  intros Hm. unfold get_into. replace (negb (is_complex v) || is_complex dst) with true by (destruct Hm as [-> | ->]; [done | by rewrite orb_true_r]).
  eexists. split; [reflexivity|]. unfold Model_Vec.resize. simpl Nat.odd. rewrite andb_false_r. simpl. done.
Qed.
End conv.

Section conv2.
Context {A : Type} `{Num A} `{Flt A}.

(** SIMD getters: the storage may not be larger than the vector *)
Theorem get_into_simd_spec (reg_op : list A -> list A) (op : A * A -> A) r addr s sched (v dst : dvec A) c :
  reg_ok r -> elem_aligned r addr -> cplx v c -> address_ok r addr v -> alloc_len v = len v -> takes dst (len v) -> halves (reg_len r) reg_op op ->
  exists dst', get_into (simd_into_target reg_op op r addr s sched) v dst = Done dst' /\ got v (map op c) dst dst'.
Proof.
  intros Hr Ha Hvc Hok Hal Ht Hop. pose proof (address_ok_cplx r addr v c Hvc Hok) as Hf. destruct Hvc as [Hc Hv].
  destruct (vdata_split v _ Hv) as (rest & He & Hn). destruct (resize_takes dst (len v) Ht) as (d1 & H1 & Hl1 & Hc1 & Hm1 & Ha1).
  assert (rest = []) as ->.
  { apply length_zero_iff_nil. unfold alloc_len, s_len, len in Hal. fold (elems v) in Hal. rewrite He, app_length in Hal. lia. }
  rewrite app_nil_r in He.
  unfold get_into. rewrite Hc. destruct Ht as (Hcd & _ & _). rewrite Hcd. simpl. rewrite H1. unfold simd_into_target.
  assert (Hn' : len v = 2 * length c) by (unfold len; rewrite Hn, complex_to_array_length; done).
  rewrite Hn' in Ha1. rewrite Hn', div2_double. rewrite resize_within by (done || lia).
  destruct (vdata_within d1 (length c)) as (t & Hvt & Hlt); [lia|].
  change (vdata (set_delta (set_valid_len d1 (length c)) (delta v))) with (vdata (set_valid_len d1 (length c))). rewrite Hvt, bind_Done.
  rewrite (slice_Done t) by lia. rewrite bind_Done. rewrite drop_0, take_ge by lia.
  rewrite He, complex_to_array_length.
  destruct (alignment_halves r addr (length c) Hr Ha Hf) as
    (part & from & to & rfrom & rto & ml & mc & mr & -> & Hcr & Hrcr & Hsum & Hpl & Hpleft & Hpright & Halg & Hm & Hcut & Hccut & Htgt).
  rewrite bind_Done, Hcr, bind_Done.
  destruct (cut3 c ml mc mr Hsum) as (L & C & R & -> & HL & HC & HR).
  destruct (cut3 t ml mc mr ltac:(lia)) as (TL & TC & TR & -> & HTL & HTC & HTR).
  pose proof (Hcut A L C R [] HL HC HR) as Hce. rewrite app_nil_r in Hce.
  rewrite Hce, bind_Done, Hrcr, bind_Done.
  destruct (Htgt A TL TC TR HTL HTC HTR) as [-> Hspl]. rewrite bind_Done, from_src_to_dest_small, run_steps_cons.
  pose proof (slice_pre (complex_to_array C) []) as HsC. rewrite app_nil_r in HsC. cbn [fst snd].
  rewrite HsC, bind_Done. rewrite complex_to_array_length.
  assert (Hchk : regs_check r (addr + (from + 0) * elem_size r) (2 * length C - 0) = true).
  { rewrite Nat.add_0_r, Nat.sub_0_r. destruct (decide (mc = 0)) as [E|E]; [unfold regs_check; rewrite HC, E; done|].
    apply regs_check_true; [by apply Halg | by rewrite HC]. }
  rewrite Hchk. cbn [assert_]. rewrite bind_Done, bind_Done.
  rewrite (half_center (reg_len r) reg_op op C TC); [|by destruct Hr as (_ & ? & _) | by destruct Hr as (_ & _ & ?) | exact Hop | by rewrite HC | lia].
  rewrite bind_Done. rewrite Hspl by (rewrite map_length; lia). rewrite bind_Done.
  rewrite array_to_complex_Done, bind_Done. pose proof (Hccut (A * A)%type L C R [] HL HC HR) as Hcc. rewrite app_nil_r in Hcc.
  rewrite Hcc, bind_Done. rewrite Hpl, Hpleft, Hpright. pose proof (slice_pre (TL ++ map op C ++ TR) []) as HsT. rewrite app_nil_r in HsT.
  replace (slice (TL ++ map op C ++ TR) 0 (length (L ++ C ++ R))) with (Done (TL ++ map op C ++ TR)).
  2:{ rewrite <- HsT. f_equal. rewrite !app_length, map_length. lia. }
  rewrite bind_Done. rewrite <- HTL, <- HTR.
  replace (length (L ++ C ++ R)) with (length TL + length (map op C) + length TR) by (rewrite !app_length, map_length; lia).
  rewrite edge_update_zip_spec by lia. rewrite bind_Done.
  assert (Hz : forall (B : Type) (t : list B) (l : list (A * A)), length t = length l -> zip_with (fun _ x => op x) t l = map op l).
  { intros B t. induction t as [|y t IH]; intros [|x l] Hl; try done. simpl. f_equal. apply IH. by injection Hl. }
  rewrite !Hz by lia. rewrite <- !map_app.
  rewrite splice_Done by (rewrite !map_length, !app_length, map_length; lia). rewrite bind_Done, take_0, app_nil_l.
  rewrite drop_ge, app_nil_r by (rewrite !map_length, !app_length, map_length; lia).
  replace (length TL + length (map op C) + length TR) with (length (L ++ C ++ R)) by (rewrite !app_length, map_length; lia).
  set (cc := L ++ C ++ R) in *. clearbody cc.
  destruct (vdata_splice (set_delta (set_valid_len d1 (length cc)) (delta v)) (TL ++ TC ++ TR) (map op cc) Hvt ltac:(rewrite map_length; lia))
    as (w & -> & Hw & (Hw1 & Hw2 & Hw3) & _).
  exists w. split; [done|]. destruct Hm1 as (M1 & M2 & M3). split_and!; try (rewrite ?Hw1, ?Hw2, ?Hw3; simpl; congruence).
  split; [|done]. unfold is_complex in *. rewrite Hw3. simpl. done.
Qed.

(** ** Two targets at once *)
Theorem get_two_spec (body : list A -> list A -> run (list A * list A)) (v t1 t2 : dvec A) c (l1 l2 : list A) :
  cplx v c -> takes t1 (length c) -> takes t2 (length c) -> length l1 = length c -> length l2 = length c ->
  (forall d1 d2, length d1 = length c -> length d2 = length c -> body d1 d2 = Done (l1, l2)) ->
  exists t1' t2', get_two body v t1 t2 = Done (t1', t2') /\ reals t1' l1 /\ reals t2' l2 /\ same_meta t1 t1' /\ same_meta t2 t2'.
Proof.
  intros [Hc Hv] Ht1 Ht2 Hl1 Hl2 Hb. destruct (vdata_split v _ Hv) as (rest & He & Hn).
  assert (Hn' : len v = 2 * length c) by (unfold len; rewrite Hn, complex_to_array_length; done).
  destruct (resize_takes t1 _ Ht1) as (u1 & E1 & Ln1 & C1 & M1 & A1). destruct (resize_takes t2 _ Ht2) as (u2 & E2 & Ln2 & C2 & M2 & A2).
  unfold get_two. rewrite Hc. destruct Ht1 as (-> & _). destruct Ht2 as (-> & _). simpl negb. cbn [orb]. rewrite Hn', div2_double, E1, E2.
  assert (Hex : forall u : dvec A, len u = length c -> length c <= alloc_len u -> exists l, vdata u = Done l /\ length l = length c).
  { intros u Hlu Hau. destruct (vdata_within u (length c) Hau) as (l & Hl & Hll). exists l. split; [|done]. rewrite <- Hl. unfold vdata. simpl.
    unfold len in Hlu. by rewrite Hlu. }
  destruct (Hex u1 Ln1 A1) as (d1 & V1 & D1). destruct (Hex u2 Ln2 A2) as (d2 & V2 & D2).
  rewrite V1, bind_Done, (slice_Done d1) by lia. rewrite bind_Done, V2, bind_Done, (slice_Done d2) by lia. rewrite bind_Done.
  rewrite !drop_0, !take_ge by lia. rewrite Hb by done. rewrite bind_Done.
  destruct (vdata_splice u1 d1 l1 V1 ltac:(lia)) as (w1 & Ew1 & Hw1 & Hm1 & _). destruct (vdata_splice u2 d2 l2 V2 ltac:(lia)) as (w2 & Ew2 & Hw2 & Hm2 & _).
  revert Ew1 Ew2.
  destruct (splice (elems u1) 0 l1) as [m1|]; [|done]. intros Ew1. rewrite bind_Done in Ew1. injection Ew1 as <-. rewrite bind_Done.
  destruct (splice (elems u2) 0 l2) as [m2|]; [|done]. intros Ew2. rewrite bind_Done in Ew2. injection Ew2 as <-. rewrite bind_Done.
  eexists _, _. split; [reflexivity|]. unfold same_meta in *. destruct Hm1 as (? & ? & N1), Hm2 as (? & ? & N2), M1 as (? & ? & ?), M2 as (? & ? & ?).
  split_and!; try congruence; split; try done; unfold is_complex in *; congruence.
Qed.

Theorem get_two_mismatch (body : list A -> list A -> run (list A * list A)) (v t1 t2 : dvec A) :
  is_complex v = false \/ is_complex t1 = true \/ is_complex t2 = true ->
  exists t1' t2', get_two body v t1 t2 = Done (t1', t2') /\ len t1' = 0 /\ len t2' = 0 /\ same_meta t1 t1' /\ same_meta t2 t2'.
Proof.
  intros Hm. unfold get_two. replace (negb (is_complex v) || is_complex t1 || is_complex t2) with true
    by (destruct Hm as [-> |[-> | ->]]; [done | by rewrite orb_true_r | by rewrite orb_true_r]).
  eexists _, _. split; [reflexivity|]. unfold Model_Vec.resize. simpl Nat.odd. rewrite !andb_false_r. simpl. done.
Qed.

Lemma even_half j : (2 * j) mod 2 = 0 /\ (2 * j) / 2 = j /\ (2 * j + 1) mod 2 = 1 /\ (2 * j + 1) / 2 = j.
Proof.
  split_and!.
  - rewrite Nat.mul_comm. by apply Nat.mod_mul.
  - apply div2_double.
  - rewrite Nat.add_comm, Nat.mul_comm. by rewrite Nat.mod_add.
  - rewrite Nat.add_comm, Nat.mul_comm. by rewrite Nat.div_add.
Qed.

(** Two iterations of a loop at a time *)
Lemma loop_pairs {St} (f : nat -> St -> run St) n : forall i (s : St),
  loop (2 * n) (2 * i) f s = loop n i (fun j s => s ← f (2 * j) s; f (2 * j + 1) s) s.
Proof.
  induction n as [|n IH]; intros i s; [done|]. replace (2 * S n) with (S (S (2 * n))) by lia. cbn [loop].
  destruct (f (2 * i) s) as [s1|]; [|done]. rewrite !bind_Done. replace (2 * i + 1) with (S (2 * i)) by lia.
  destruct (f (S (2 * i)) s1) as [s2|]; [|done]. rewrite !bind_Done. replace (S (2 * i) + 1) with (2 * (i + 1)) by lia. apply IH.
Qed.

Lemma wr_take (l L : list A) i x : length l = length L -> L !! i = Some x -> i < length L ->
  wr (take i L ++ drop i l) i x = Done (take (i + 1) L ++ drop (i + 1) l).
Proof.
  intros Hl Hx Hi. destruct (lookup_lt_is_Some_2 l i ltac:(lia)) as [y Hy]. rewrite (drop_S l y i Hy).
  rewrite wr_Done by (rewrite app_length, take_length; simpl; rewrite drop_length; lia).
  rewrite insert_app_r_alt by (rewrite take_length; lia). rewrite take_length, Nat.min_l by lia. rewrite Nat.sub_diag. simpl.
  rewrite Nat.add_1_r. by rewrite (take_S_r L i x Hx), <- app_assoc.
Qed.

Theorem get_real_imag_spec (v re im : dvec A) c : cplx v c -> takes re (length c) -> takes im (length c) ->
  exists re' im', get_real_imag v re im = Done (re', im') /\ reals re' (map fst c) /\ reals im' (map snd c) /\ same_meta re re' /\ same_meta im im'.
Proof.
  intros Hvc H1 H2. apply (get_two_spec _ v re im c); [done|done|done|by rewrite map_length|by rewrite map_length|]. intros d1 d2 D1 D2.
  destruct Hvc as [Hc Hv]. destruct (vdata_split v _ Hv) as (rest & He & Hn). unfold len. rewrite Hn, He, slice_pre, bind_Done, complex_to_array_length.
  rewrite (loop_pairs _ (length c) 0).
  destruct (loop_inv (fun j '(a, b) => a = take j (map fst c) ++ drop j d1 /\ b = take j (map snd c) ++ drop j d2) (length c) 0
    (fun j s => s ← (fun i '(re, im) =>
      n ← rd (complex_to_array c) i;
      if i mod 2 =? 0 then re ← wr re (i / 2) n; Done (re, im) else im ← wr im (i / 2) n; Done (re, im)) (2 * j) s;
      (fun i '(re, im) =>
      n ← rd (complex_to_array c) i;
      if i mod 2 =? 0 then re ← wr re (i / 2) n; Done (re, im) else im ← wr im (i / 2) n; Done (re, im)) (2 * j + 1) s) (d1, d2)) as ([a b] & Hl & Ha & Hb).
  - done.
  - intros j [a b] [_ Hj] [-> ->]. simpl in Hj. destruct (lookup_lt_is_Some_2 c j Hj) as [[x y] E]. destruct (rd_pair c j x y E) as [R1 R2].
    destruct (even_half j) as (E1 & E2 & E3 & E4). rewrite R1, bind_Done, E1, E2. cbn [Nat.eqb].
    rewrite (wr_take d1 (map fst c) j x); [|by rewrite map_length|by rewrite list_lookup_fmap, E|by rewrite map_length]. rewrite !bind_Done.
    rewrite R2, bind_Done, E3, E4. cbn [Nat.eqb].
    rewrite (wr_take d2 (map snd c) j y); [|by rewrite map_length|by rewrite list_lookup_fmap, E|by rewrite map_length]. rewrite !bind_Done. eexists (_, _). split; [reflexivity|]. done.
  - rewrite Hl. simpl in Ha, Hb. subst a b. rewrite !take_ge, !drop_ge, !app_nil_r by (rewrite ?map_length; lia). done.
Qed.

Theorem get_mag_phase_spec (v mag ph : dvec A) c : cplx v c -> takes mag (length c) -> takes ph (length c) ->
  exists mag' ph', get_mag_phase v mag ph = Done (mag', ph') /\ reals mag' (map cnorm c) /\ reals ph' (map carg c) /\ same_meta mag mag' /\ same_meta ph ph'.
Proof.
  intros Hvc H1 H2. apply (get_two_spec _ v mag ph c); [done|done|done|by rewrite map_length|by rewrite map_length|]. intros d1 d2 D1 D2.
  destruct Hvc as [Hc Hv]. destruct (vdata_split v _ Hv) as (rest & He & Hn). unfold len. rewrite Hn, complex_to_array_length.
  destruct (even_half (length c)) as (_ & _ & _ & ->).
  destruct (loop_inv (fun j '(a, b) => a = take j (map cnorm c) ++ drop j d1 /\ b = take j (map carg c) ++ drop j d2) (length c) 0
    (fun j '(mag, ph) =>
      x ← rd (elems v) (2 * j);
      y ← rd (elems v) (2 * j + 1);
      mag ← wr mag j (cnorm (x, y));
      ph ← wr ph j (carg (x, y));
      Done (mag, ph)) (d1, d2)) as ([a b] & Hl & Ha & Hb).
  - done.
  - intros j [a b] [_ Hj] [-> ->]. simpl in Hj. destruct (lookup_lt_is_Some_2 c j Hj) as [[x y] E]. destruct (rd_pair c j x y E) as [R1 R2].
    assert (HR : forall k z, rd (complex_to_array c) k = Done z -> rd (elems v) k = Done z).
    { intros k z Hk. apply rd_Done. apply rd_Done in Hk. rewrite He. by apply lookup_app_l_Some. }
    rewrite (HR _ _ R1), bind_Done, (HR _ _ R2), bind_Done.
    rewrite (wr_take d1 (map cnorm c) j); [|by rewrite map_length|by rewrite list_lookup_fmap, E|by rewrite map_length]. rewrite bind_Done.
    rewrite (wr_take d2 (map carg c) j); [|by rewrite map_length|by rewrite list_lookup_fmap, E|by rewrite map_length]. rewrite bind_Done. eexists (_, _). split; [reflexivity|]. done.
  - rewrite Hl. simpl in Ha, Hb. subst a b. rewrite !take_ge, !drop_ge, !app_nil_r by (rewrite ?map_length; lia). done.
Qed.
End conv2.
