From Verif Require Export Proof_StatsOps.

Section monoid.
Context {Q : Type} (add : Q -> Q -> Q) (zero : Q).
Definition comm_monoid : Prop :=
  (forall a b c, add a (add b c) = add (add a b) c) /\ (forall a b, add a b = add b a) /\ (forall a, add a zero = a).
Context (M : comm_monoid).

Lemma monoid_zero_l a : add zero a = a.
Proof. destruct M as (_ & Hc & Hz). by rewrite Hc. Qed.
Lemma sum_app l l' : sum_of add zero (l ++ l') = add (sum_of add zero l) (sum_of add zero l').
Proof. destruct M as (Ha & Hc & Hz). apply foldr_app_add; [done | apply monoid_zero_l]. Qed.
Lemma foldl_sum x l : foldl add x l = add x (sum_of add zero l).
Proof. destruct M as (Ha & Hc & Hz). by apply foldl_foldr. Qed.
Lemma foldl_sum_zero l : foldl add zero l = sum_of add zero l.
Proof. rewrite foldl_sum. apply monoid_zero_l. Qed.
Lemma foldl_map_sum {B} (f : B -> Q) x l : foldl (fun s b => add s (f b)) x l = add x (sum_of add zero (map f l)).
Proof. rewrite <- foldl_sum. revert x. induction l as [|b l IH]; intros x; [done|]. cbn [foldl map]. apply IH. Qed.
Lemma sum_move a b c d : add (add a b) (add c d) = add (add a c) (add b d).
Proof. destruct M as (Ha & Hc & Hz). rewrite <- !Ha. f_equal. rewrite !Ha. f_equal. apply Hc. Qed.
Lemma sum_zip l l' : length l = length l' -> sum_of add zero (zip_with add l l') = add (sum_of add zero l) (sum_of add zero l').
Proof.
  destruct M as (Ha & Hc & Hz). revert l'. induction l as [|x l IH]; intros [|y l'] Hl; try done.
  - cbn [zip_with]. unfold sum_of in *. cbn [foldr]. rewrite IH by (simpl in Hl; lia). apply sum_move.
Qed.
Lemma sum_zeros n : sum_of add zero (replicate n zero) = zero.
Proof. induction n as [|n IH]; [done|]. cbn [replicate]. unfold sum_of in *. cbn [foldr]. rewrite IH. by destruct M as (_ & _ & ->). Qed.
Lemma reg_sum_sum l : reg_sum zero add l = sum_of add zero l.
Proof. destruct l as [|x l]; [done|]. unfold reg_sum. rewrite foldl_sum. done. Qed.
End monoid.

(** The blocks of a list *)
Lemma chunks_fuel_app {B} fuel w (b l : list B) : 0 < w -> length b = w -> length (b ++ l) <= fuel ->
  exists fuel', chunks_fuel fuel w (b ++ l) = b :: chunks_fuel fuel' w l /\ length l <= fuel'.
Proof.
  intros Hw Hb Hf. destruct b as [|x b]; [simpl in Hb; lia|]. rewrite app_length in Hf. cbn [length] in *.
  destruct fuel as [|fuel]; [lia|]. exists fuel. cbn [chunks_fuel app]. split; [|lia]. f_equal.
  - subst w. change (x :: b ++ l) with ((x :: b) ++ l). replace (S (length b)) with (length (x :: b)) by done. apply take_app.
  - f_equal. subst w. change (x :: b ++ l) with ((x :: b) ++ l). replace (S (length b)) with (length (x :: b)) by done. apply drop_app.
Qed.

Lemma chunks_fuel_blocks {B} fuel w (l : list B) : 0 < w -> length l <= fuel -> length l mod w = 0 -> forall b, b ∈ chunks_fuel fuel w l -> length b = w.
Proof.
  intros Hw Hf Hm b Hb. apply elem_of_list_lookup in Hb as [i Hi]. rewrite chunks_fuel_lookup in Hi by done.
  destruct (i * w <? length l) eqn:E; [|done]. injection Hi as <-. rewrite take_length, drop_length. apply Nat.ltb_lt in E.
  apply Nat.mod_divide in Hm as [k Hk]; [|lia]. rewrite Hk in *. assert (i < k) by nia. apply Nat.min_l. nia.
Qed.

Section sums.
Context {A : Type} `{Num A} `{Flt A} (R : exact_ring A).
Let R' : ring_theory n0 n1 nadd nmul nsub nopp eq := R.
Add Ring Aring3 : R'.

Lemma real_monoid : comm_monoid (nadd (A := A)) n0.
Proof. split_and!; intros; ring. Qed.
Lemma complex_monoid : comm_monoid (cadd (A := A)) (n0, n0).
Proof. split_and!; intros; [by apply cadd_assoc | by apply cadd_comm | by apply cadd_zero]. Qed.

(** The total of the lanes of a sum of registers. [T] adds up the lanes of a register, [U] adds up what belongs to a list of elements. *)
Lemma regs_total {Q} (add : Q -> Q -> Q) (zero : Q) (T : list A -> Q) (w : nat) (regs : list (list A)) acc :
  comm_monoid add zero ->
  (forall a b, length a = w -> length b = w -> T (reg_bin nadd a b) = add (T a) (T b)) ->
  length acc = w -> (forall b, b ∈ regs -> length b = w) ->
  T (foldl (reg_bin nadd) acc regs) = add (T acc) (sum_of add zero (map T regs)).
Proof.
  intros M HT. revert acc. induction regs as [|b regs IH]; intros acc Ha Hr.
  - unfold sum_of; cbn [foldr foldl map]. by destruct M as (_ & _ & ->).
  - cbn [foldl]. assert (Hb : length b = w) by (apply Hr; left). rewrite IH.
    + rewrite HT by done. cbn [map]. unfold sum_of. cbn [foldr]. by destruct M as (<- & _).
    + unfold reg_bin. rewrite zip_with_length. lia.
    + intros; apply Hr. by right.
Qed.

Lemma sum_blocks {Q} (add : Q -> Q -> Q) (zero : Q) (U : list A -> Q) fuel w (C : list A) :
  comm_monoid add zero -> 0 < w -> length C <= fuel -> length C mod w = 0 -> U [] = zero ->
  (forall b l, length b = w -> U (b ++ l) = add (U b) (U l)) ->
  sum_of add zero (map U (chunks_fuel fuel w C)) = U C.
Proof.
  intros M Hw Hf Hm HU0 HU. apply Nat.mod_divide in Hm as [k Hk]; [|lia]. revert fuel C Hf Hk. induction k as [|k IH]; intros fuel C Hf Hk.
  - destruct C; [|simpl in Hk; lia]. destruct fuel; done.
  - rewrite <- (take_drop w C). assert (Hb : length (take w C) = w) by (rewrite take_length; nia).
    destruct (chunks_fuel_app fuel w (take w C) (drop w C)) as (fuel' & -> & Hf'); [done | done | by rewrite take_drop|].
    cbn [map]. unfold sum_of. cbn [foldr]. rewrite HU by done. f_equal. apply IH; [done|]. rewrite drop_length. nia.
Qed.

Lemma worker_total {Q} (add : Q -> Q -> Q) (zero : Q) (T U : list A -> Q) (reg_op : list A -> list A) r addr (C : list A) :
  comm_monoid add zero -> reg_ok r -> length C mod reg_len r = 0 -> addr mod reg_bytes r = 0 ->
  (forall a b, length a = reg_len r -> length b = reg_len r -> T (reg_bin nadd a b) = add (T a) (T b)) ->
  T (splat r n0) = zero -> (forall b, length b = reg_len r -> length (reg_op b) = reg_len r /\ T (reg_op b) = U b) ->
  U [] = zero -> (forall b l, length b = reg_len r -> U (b ++ l) = add (U b) (U l)) ->
  exists res, (regs ← regs_of r addr C; Done (foldl (fun sum reg => reg_bin nadd sum (reg_op reg)) (splat r n0) regs)) = Done res /\ T res = U C.
Proof.
  intros M Hr Hm Ha HT HT0 Hop HU0 HU. assert (Hw : 0 < reg_len r) by (by destruct Hr as (_ & ? & _)).
  unfold regs_of. rewrite regs_check_true by done. cbn [assert_]. rewrite !bind_Done. eexists. split; [done|].
  rewrite <- (sum_blocks add zero U (length C) (reg_len r) C) by done.
  assert (Hfold : forall l acc, foldl (fun sum reg => reg_bin nadd sum (reg_op reg)) acc l = foldl (reg_bin nadd) acc (map reg_op l)).
  { induction l as [|x l IH]; intros acc; [done|]. cbn [foldl map]. apply IH. }
  rewrite Hfold. pose proof (chunks_fuel_blocks (length C) (reg_len r) C Hw (le_n _) Hm) as Hblocks.
  rewrite (regs_total add zero T (reg_len r)); [|done|done|unfold splat; by rewrite replicate_length|].
  - rewrite HT0, monoid_zero_l by done. f_equal. rewrite map_map.
    revert Hblocks Hop. generalize (chunks_fuel (length C) (reg_len r) C). clear. intros cs Hb Hop.
    induction cs as [|c cs IH]; [done|]. cbn [map]. rewrite IH by (intros; apply Hb; by right). f_equal. apply Hop, Hb. left.
  - intros b Hb. apply elem_of_list_fmap in Hb as (b' & -> & Hb'). apply Hop. auto.
Qed.

Theorem simd_sum_spec (reg_op : list A -> list A) (op : A -> A) r addr s order (v : dvec A) l :
  reg_ok r -> elem_aligned r addr -> vdata v = Done l -> simd_fits r addr (length l) ->
  (forall b, reg_op b = map op b) ->
  simd_sum reg_op op r addr s order v = Done (sum_of nadd n0 (map op l)).
Proof.
  intros Hr Ha Hv Hf Hop. destruct (vdata_split v l Hv) as (rest & He & Hn). unfold simd_sum.
  rewrite (vdata_slice v l Hv), bind_Done.
  destruct (alignment_parts r addr (length l) Hr Ha Hf) as
    (part & from & to & nl & nc & nr & -> & Hcr & Hsum & Hfrom & Hal & Hm & _ & _ & _ & Hcut & _).
  rewrite bind_Done, Hcr, bind_Done. destruct (cut3 l nl nc nr Hsum) as (L & C & Rr & -> & HL & HC & HR).
  destruct (Hcut A L C Rr rest HL HC HR) as [Hs Hedge]. rewrite He, <- !app_assoc, Hs, bind_Done.
  rewrite get_chunked_small. pose proof real_monoid as M.
  assert (Hedges : foldl (fun sum x => sum + op x)%num n0 (L ++ Rr) = (sum_of nadd n0 (map op L) + sum_of nadd n0 (map op Rr))%num).
  { rewrite (foldl_map_sum nadd n0 M), map_app, sum_app by done. by rewrite monoid_zero_l. }
  rewrite !map_app, !(sum_app nadd n0) by done.
  destruct C as [|x C0] eqn:EC.
  - rewrite bind_Done, Hedge, bind_Done, Hedges. cbn [map foldl]. f_equal. unfold sum_of at 4. cbn [map foldr]. ring.
  - rewrite <- EC in *. cbn [fst]. assert (Hne : nc <> 0) by (subst C; simpl in HC; lia).
    destruct (worker_total nadd n0 (sum_of nadd n0) (fun l => sum_of nadd n0 (map op l)) reg_op r (addr + (from + 0) * elem_size r) C) as (res & -> & Hres);
      try done.
    + by rewrite HC.
    + rewrite Nat.add_0_r. auto.
    + intros a b Hla Hlb. apply sum_zip; [done | lia].
    + unfold splat. by apply sum_zeros.
    + intros b Hb. rewrite Hop, map_length. done.
    + intros b l' Hb. rewrite map_app. by apply sum_app.
    + rewrite !bind_Done, Hedge, bind_Done, Hedges. cbn [map foldl]. unfold reg_sum_real. rewrite (reg_sum_sum nadd n0) by done. rewrite Hres.
      f_equal. ring.
Qed.

Lemma reg_bin_pairs (a b : list A) : length a = length b -> Nat.even (length a) = true ->
  pairs_of (reg_bin nadd a b) = zip_with cadd (pairs_of a) (pairs_of b).
Proof.
  intros Hl He. destruct (exists_complex a He) as [ca ->]. rewrite Hl in He. destruct (exists_complex b He) as [cb ->].
  unfold reg_bin. rewrite zip_add_complex, !pairs_of_complex_to_array. done.
Qed.

Lemma pairs_of_splat r (x : A) : Nat.even (reg_len r) = true -> pairs_of (splat r x) = replicate (reg_len r / 2) (x, x).
Proof.
  intros He. apply Nat.even_spec in He as [k Hk]. unfold splat. rewrite Hk, div2_double. clear. induction k as [|k IH]; [done|].
  replace (2 * S k) with (S (S (2 * k))) by lia. cbn [replicate pairs_of]. by rewrite IH.
Qed.

Theorem simd_sum_complex_spec (reg_op : list A -> list A) (op : A * A -> A * A) r addr s order (v : dvec A) c :
  reg_ok r -> elem_aligned r addr -> cplx v c -> whole_points v -> address_ok r addr v ->
  (forall b, Nat.even (length b) = true -> reg_op b = complex_to_array (map op (pairs_of b))) ->
  simd_sum_complex reg_op op r addr s order v = Done (sum_of cadd (n0, n0) (map op c)).
Proof.
  intros Hr Ha Hvc Hw Hok Hop. pose proof (address_ok_cplx r addr v c Hvc Hok) as Hf. destruct Hvc as [Hc Hv].
  destruct (vdata_split v _ Hv) as (rest & He & Hn). unfold simd_sum_complex.
  assert (Hrev : Nat.even (length rest) = true).
  { specialize (Hw Hc). unfold alloc_len, s_len in Hw. fold (elems v) in Hw. rewrite He, app_length, complex_to_array_length in Hw.
    by rewrite Nat.even_add, even_double in Hw; destruct (Nat.even (length rest)). }
  destruct (exists_complex rest Hrev) as [crest ->].
  rewrite (vdata_slice v _ Hv), bind_Done, complex_to_array_length.
  assert (Hwl : 0 < reg_len r) by (by destruct Hr as (_ & ? & _)). assert (Hev : Nat.even (reg_len r) = true) by (by destruct Hr as (_ & _ & ?)).
  assert (Hsf : simd_fits r addr (2 * length c)) by (destruct Hf as [[? _]|?]; [by left | by right]).
  destruct (alignment_parts r addr (2 * length c) Hr Ha Hsf) as
    (part & from & to & nl & nc & nr & -> & Hcr & Hsum & Hfrom & Hal & Hm & Hpar & Hnr & Hbig & Hcut & Hccut).
  assert (Heven : Nat.even nl = true /\ Nat.even nr = true).
  { destruct (decide (nc = 0)) as [E0|Hnc].
    - specialize (Hnr E0). subst nc nr. split; [|done]. rewrite !Nat.add_0_r in Hsum. rewrite Hsum. apply even_double.
    - destruct Hf as [[_ Hp]|Hlt]; [apply Hpar; [done | apply even_double]|].
      specialize (Hbig Hnc). lia. }
  rewrite bind_Done, Hcr, bind_Done.
  destruct Heven as [Hel Her]. apply Nat.even_spec in Hel as [ml Hml], Her as [mr Hmr].
  assert (Hmc : exists mc, nc = 2 * mc) by (exists (length c - ml - mr); clear -Hsum Hml Hmr; lia). destruct Hmc as [mc Hmc].
  destruct (cut3 c ml mc mr ltac:(clear -Hsum Hml Hmr Hmc; lia)) as (L & C & Rr & -> & HL & HC & HR).
  destruct (Hcut A (complex_to_array L) (complex_to_array C) (complex_to_array Rr) (complex_to_array crest)) as [Hs _];
    try (rewrite complex_to_array_length; clear -HL HC HR Hml Hmc Hmr; lia).
  specialize (Hccut (A * A)%type L C Rr crest ltac:(clear -HL Hml; lia) ltac:(clear -HC Hmc; lia) ltac:(clear -HR Hmr; lia)).
  rewrite He. rewrite <- complex_to_array_app, array_to_complex_Done, <- !app_assoc.
  rewrite !complex_to_array_app. rewrite Hs, bind_Done, get_chunked_small. pose proof complex_monoid as M.
  assert (Hedges : foldl (fun sum x => cadd sum (op x)) (n0, n0) (L ++ Rr) = cadd (sum_of cadd (n0, n0) (map op L)) (sum_of cadd (n0, n0) (map op Rr))).
  { rewrite (foldl_map_sum cadd (n0, n0) M), map_app, sum_app by done. by rewrite monoid_zero_l. }
  rewrite !map_app, !(sum_app cadd (n0, n0)) by done.
  destruct C as [|x C0] eqn:EC.
  - cbn [complex_to_array]. rewrite !bind_Done, Hccut, bind_Done, Hedges. cbn [foldl]. f_equal.
    change (sum_of cadd (n0, n0) (map op [])) with ((n0, n0) : A * A). by rewrite !(monoid_zero_l cadd (n0, n0) M).
  - destruct (complex_to_array (x :: C0)) as [|y l0] eqn:El; [by destruct x|]. rewrite <- El, <- EC in *. clear El y l0.
    cbn [fst]. assert (Hne : nc <> 0) by (subst C; simpl in HC; lia).
    destruct (worker_total cadd (n0, n0) (fun l => sum_of cadd (n0, n0) (pairs_of l)) (fun l => sum_of cadd (n0, n0) (map op (pairs_of l)))
      reg_op r (addr + (from + 0) * elem_size r) (complex_to_array C)) as (res & -> & Hres); try done.
    + by rewrite complex_to_array_length, HC, <- Hmc.
    + rewrite Nat.add_0_r. auto.
    + intros a b Hla Hlb. rewrite reg_bin_pairs by (rewrite ?Hla; done). apply sum_zip; [done|]. rewrite !pairs_of_length. congruence.
    + rewrite pairs_of_splat by done. by apply sum_zeros.
    + intros b Hb. rewrite Hop by (by rewrite Hb). split.
      * rewrite complex_to_array_length, map_length, pairs_of_length, Hb. apply Nat.even_spec in Hev as [k ->]. by rewrite div2_double.
      * by rewrite pairs_of_complex_to_array.
    + intros b l' Hb. rewrite pairs_of_app_even by (by rewrite Hb). rewrite map_app. by apply sum_app.
    + rewrite !bind_Done, Hccut, bind_Done, Hedges. cbn [map foldl]. unfold reg_sum_complex.
      rewrite (reg_sum_sum cadd (n0, n0)) by done. rewrite Hres, pairs_of_complex_to_array, (monoid_zero_l cadd (n0, n0) M).
      f_equal. destruct M as (Ma & Mc & _). rewrite !Ma. f_equal. apply Mc.
Qed.

Lemma dot_blocks {Q} (add : Q -> Q -> Q) (zero : Q) (T : list A -> Q) (U : list A -> list A -> Q) reg_mul w k (orig : list A) :
  comm_monoid add zero -> 0 < w -> U [] [] = zero ->
  (forall a b a' b', length a = w -> length b = w -> U (a ++ a') (b ++ b') = add (U a b) (U a' b')) ->
  (forall a b, length a = w -> length b = w -> length (reg_mul a b) = w /\ T (reg_mul a b) = U a b) ->
  forall i0 fuel (C O : list A), length C = k * w -> length C <= fuel -> drop (i0 * w) orig = O -> length O = length C ->
  exists prods, all_done (imap (fun i a => b ← slice orig (0 + (i0 + i) * w) (0 + (i0 + i) * w + w); Done (reg_mul a b)) (chunks_fuel fuel w C)) = Done prods /\
    (forall b, b ∈ prods -> length b = w) /\ sum_of add zero (map T prods) = U C O.
Proof.
  intros M Hw HU0 HU Hmul. induction k as [|k IH]; intros i0 fuel C O Hk Hf Hd Hl.
  - apply nil_length_inv in Hk. subst C. apply nil_length_inv in Hl. subst O. exists []. destruct fuel; (split_and!; [done | intros b Hb; by apply elem_of_nil in Hb | rewrite Hl; symmetry; exact HU0]).
  - assert (Ht : length (take w C) = w) by (rewrite take_length; nia).
    rewrite <- (take_drop w C) in Hf |- *.
    destruct (chunks_fuel_app fuel w (take w C) (drop w C)) as (fuel' & -> & Hf'); [done | done | done|].
    cbn [imap all_done]. rewrite Nat.add_0_r, Nat.add_0_l.
    assert (HO : length orig - i0 * w = length C) by (rewrite <- Hl, <- Hd, drop_length; done).
    rewrite slice_Done by nia. rewrite !bind_Done.
    replace (i0 * w + w - i0 * w) with w by lia. rewrite Hd.
    assert (Hto : length (take w O) = w) by (rewrite take_length; nia).
    destruct (IH (i0 + 1) fuel' (drop w C) (drop w O)) as (prods & Hp & Hpl & Hps).
    { rewrite drop_length; nia. } { done. } { rewrite <- Hd, drop_drop. f_equal. lia. } { rewrite !drop_length. lia. }
    assert (Himap : imap ((fun i a => b ← slice orig (0 + (i0 + i) * w) (0 + (i0 + i) * w + w); Done (reg_mul a b)) ∘ S) (chunks_fuel fuel' w (drop w C)) =
      imap (fun i a => b ← slice orig (0 + (i0 + 1 + i) * w) (0 + (i0 + 1 + i) * w + w); Done (reg_mul a b)) (chunks_fuel fuel' w (drop w C))).
    { apply imap_ext. intros i a _. unfold compose. replace (i0 + S i) with (i0 + 1 + i) by lia. done. }
    cbn [Nat.add] in Himap, Hp |- *. rewrite Himap, Hp, bind_Done. eexists. split; [done|]. split.
    + intros b Hb. apply elem_of_cons in Hb as [->|Hb]; [by apply Hmul | auto].
    + cbn [map]. unfold sum_of in *. cbn [foldr]. rewrite Hps. replace (U (take w C ++ drop w C) O) with (U (take w C ++ drop w C) (take w O ++ drop w O)) by (by rewrite (take_drop w O)). rewrite HU by done. f_equal. by apply Hmul.
Qed.

Lemma dot_worker_total {Q} (add : Q -> Q -> Q) (zero : Q) (T : list A -> Q) (U : list A -> list A -> Q) reg_mul (reg_total : reg_type -> list (list A) -> list A) r addr (C O : list A) :
  comm_monoid add zero -> reg_ok r -> length C mod reg_len r = 0 -> addr mod reg_bytes r = 0 -> length O = length C ->
  (forall l, (forall b, b ∈ l -> length b = reg_len r) -> reg_total r l = plain_total r l) ->
  (forall a b, length a = reg_len r -> length b = reg_len r -> T (reg_bin nadd a b) = add (T a) (T b)) ->
  T (splat r n0) = zero -> U [] [] = zero ->
  (forall a b a' b', length a = reg_len r -> length b = reg_len r -> U (a ++ a') (b ++ b') = add (U a b) (U a' b')) ->
  (forall a b, length a = reg_len r -> length b = reg_len r -> length (reg_mul a b) = reg_len r /\ T (reg_mul a b) = U a b) ->
  dot_worker r addr reg_mul (reg_total r) T O (0, length O) C = Done (U C O).
Proof.
  intros M Hr Hm Ha Hl Htot HT HT0 HU0 HU Hmul. assert (Hw : 0 < reg_len r) by (by destruct Hr as (_ & ? & _)).
  unfold dot_worker, regs_of. cbn [fst]. rewrite Nat.mul_0_l, Nat.add_0_r, regs_check_true by done. cbn [assert_]. rewrite !bind_Done.
  apply Nat.mod_divide in Hm as [k Hk]; [|lia].
  destruct (dot_blocks add zero T U reg_mul (reg_len r) k O M Hw HU0 HU Hmul 0 (length C) C O) as (prods & Hp & Hpl & Hps); try done.
  cbn [Nat.add] in Hp |- *. rewrite Hp, bind_Done, Htot by done. f_equal. unfold plain_total.
  rewrite (regs_total add zero T (reg_len r)); [|done|done|unfold splat; by rewrite replicate_length|done].
  rewrite HT0, Hps. by apply (monoid_zero_l add zero).
Qed.

(** Compensated and plain totals of registers agree *)
Lemma kahan_total_exact r (l : list (list A)) : (forall b, b ∈ l -> length b = reg_len r) -> kahan_total r l = plain_total r l.
Proof.
  intros Hl. unfold kahan_total, plain_total. apply (kahan_exact (fun b => length b = reg_len r)); [| | | |done].
  - unfold splat. by rewrite replicate_length.
  - intros x y Hx Hy. unfold reg_bin. rewrite zip_with_length. lia.
  - intros x Hx. unfold reg_bin, splat. rewrite <- Hx. clear Hx Hl. induction x as [|x l' IH]; [done|]. cbn [length replicate zip_with].
    rewrite IH. f_equal. ring.
  - intros x y Hx Hy. unfold reg_bin, splat. rewrite <- Hx. rewrite <- Hx in Hy. clear Hx. revert y Hy.
    induction x as [|x l' IH]; intros [|y l''] Hy; try done. cbn [length replicate zip_with]. rewrite IH by (simpl in Hy; lia). f_equal. ring.
Qed.

(** The sum of the products of corresponding points *)
Definition product_sum {Q} (add mul : Q -> Q -> Q) (zero : Q) (l lo : list Q) : Q := sum_of add zero (zip_with mul l lo).

Lemma edge_product_sum {Q} (add mul : Q -> Q -> Q) (zero : Q) (l lo : list Q) : comm_monoid add zero ->
  foldl (fun sum '(a, b) => add sum (mul a b)) zero (zip l lo) = product_sum add mul zero l lo.
Proof.
  intros M. transitivity (foldl (fun sum p => add sum (mul (fst p) (snd p))) zero (zip l lo)).
  - generalize zero. generalize (zip l lo). clear. induction l as [|[a b] l IH]; intros z; [done|]. cbn [foldl fst snd]. apply IH.
  - rewrite (foldl_map_sum add zero M), (monoid_zero_l add zero M). unfold product_sum. f_equal. clear.
    revert lo. induction l as [|x l IH]; intros [|y lo]; try done. cbn [zip_with map fst snd]. by rewrite IH.
Qed.

Lemma product_sum_app {Q} (add mul : Q -> Q -> Q) (zero : Q) (l l' lo lo' : list Q) : comm_monoid add zero -> length l = length lo ->
  product_sum add mul zero (l ++ l') (lo ++ lo') = add (product_sum add mul zero l lo) (product_sum add mul zero l' lo').
Proof. intros M Hl. unfold product_sum. rewrite zip_with_app by done. by apply sum_app. Qed.

Theorem dot_real_spec reg_total r addr s order (v o : dvec A) l lo rest :
  (forall l, (forall b, b ∈ l -> length b = reg_len r) -> reg_total r l = plain_total r l) ->
  reg_ok r -> elem_aligned r addr -> reals v l -> vdata o = Done (lo ++ rest) -> length lo = length l -> simd_fits r addr (length l) ->
  dot_real reg_total r addr s order v o = Done (Ok (product_sum nadd nmul n0 l lo)).
Proof.
  intros Htot Hr Ha [Hc Hv] Ho Hll Hf. destruct (vdata_split v l Hv) as (vrest & He & Hn). unfold dot_real. rewrite Hc.
  rewrite (vdata_slice v l Hv), bind_Done.
  destruct (alignment_parts r addr (length l) Hr Ha Hf) as
    (part & from & to & nl & nc & nr & -> & Hcr & Hsum & Hfrom & Hal & Hm & _ & _ & _ & Hcut & _).
  rewrite bind_Done, Ho, bind_Done, Hcr, bind_Done. destruct (cut3 l nl nc nr Hsum) as (L & C & Rr & -> & HL & HC & HR).
  destruct (cut3 lo nl nc nr ltac:(congruence)) as (OL & OC & OR & -> & HOL & HOC & HOR).
  destruct (Hcut A L C Rr vrest HL HC HR) as [Hs Hedge]. rewrite He, <- !app_assoc, Hs.
  destruct (Hcut A OL OC OR rest HOL HOC HOR) as [Hos Hoedge]. rewrite Hos, !bind_Done, get_zipped_small. pose proof real_monoid as M.
  rewrite !(product_sum_app nadd nmul n0) by (done || congruence).
  assert (Hedges : foldl (fun sum '(a, b) => sum + a * b)%num n0 (zip (L ++ Rr) (OL ++ OR)) =
     (product_sum nadd nmul n0 L OL + product_sum nadd nmul n0 Rr OR)%num).
  { rewrite (edge_product_sum nadd nmul n0) by done. apply product_sum_app; [done | congruence]. }
  destruct OC as [|x OC0] eqn:EC.
  - assert (C = []) as -> by (apply nil_length_inv; simpl in HOC; lia).
    rewrite bind_Done, Hedge, !bind_Done, Hoedge, bind_Done, Hedges. cbn [foldl].
    change (product_sum nadd nmul n0 [] []) with (n0 : A). f_equal. f_equal. ring.
  - rewrite <- EC in *. assert (Hne : nc <> 0) by (subst OC; simpl in HOC; lia).
    rewrite (dot_worker_total nadd n0 reg_sum_real (product_sum nadd nmul n0)); try done.
    + rewrite !bind_Done, Hedge, bind_Done, Hoedge, bind_Done, Hedges. cbn [foldl]. f_equal. f_equal. ring.
    + by rewrite HC.
    + auto.
    + congruence.
    + intros a b Hla Hlb. unfold reg_sum_real. rewrite !(reg_sum_sum nadd n0) by done. apply sum_zip; [done | lia].
    + unfold reg_sum_real. rewrite (reg_sum_sum nadd n0) by done. unfold splat. by apply sum_zeros.
    + intros a b a' b' Hla Hlb. apply product_sum_app; [done | congruence].
    + intros a b Hla Hlb. unfold reg_sum_real. rewrite !(reg_sum_sum nadd n0) by done. unfold reg_bin. rewrite zip_with_length. split; [lia | done].
Qed.

Theorem dot_complex_spec reg_total r addr s order (v o : dvec A) c co crest :
  (forall l, (forall b, b ∈ l -> length b = reg_len r) -> reg_total r l = plain_total r l) ->
  reg_ok r -> elem_aligned r addr -> cplx v c -> cplx o (co ++ crest) -> length co = length c -> vdomain v = vdomain o ->
  whole_points v -> address_ok r addr v ->
  dot_complex reg_total r addr s order v o = Done (Ok (product_sum cadd cmul (n0, n0) c co)).
Proof.
  intros Htot Hr Ha Hvc [Hoc Ho] Hll Hdom Hw Hok. pose proof (address_ok_cplx r addr v c Hvc Hok) as Hf. destruct Hvc as [Hc Hv].
  destruct (vdata_split v _ Hv) as (rest & He & Hn). unfold dot_complex. rewrite Hc, Hoc, Hdom. cbn [negb orb].
  assert (Hdd : ddomain_eqb (vdomain o) (vdomain o) = true) by (by destruct (vdomain o)). rewrite Hdd. cbn [negb].
  assert (Hrev : Nat.even (length rest) = true).
  { specialize (Hw Hc). unfold alloc_len, s_len in Hw. fold (elems v) in Hw. rewrite He, app_length, complex_to_array_length in Hw.
    by rewrite Nat.even_add, even_double in Hw; destruct (Nat.even (length rest)). }
  destruct (exists_complex rest Hrev) as [vrest ->].
  rewrite (vdata_slice v _ Hv), bind_Done, complex_to_array_length.
  assert (Hwl : 0 < reg_len r) by (by destruct Hr as (_ & ? & _)). assert (Hev : Nat.even (reg_len r) = true) by (by destruct Hr as (_ & _ & ?)).
  assert (Hsf : simd_fits r addr (2 * length c)) by (destruct Hf as [[? _]|?]; [by left | by right]).
  destruct (alignment_parts r addr (2 * length c) Hr Ha Hsf) as
    (part & from & to & nl & nc & nr & -> & Hcr & Hsum & Hfrom & Hal & Hm & Hpar & Hnr & Hbig & Hcut & Hccut).
  assert (Heven : Nat.even nl = true /\ Nat.even nr = true).
  { destruct (decide (nc = 0)) as [E0|Hnc].
    - specialize (Hnr E0). subst nc nr. split; [|done]. rewrite !Nat.add_0_r in Hsum. rewrite Hsum. apply even_double.
    - destruct Hf as [[_ Hp]|Hlt]; [apply Hpar; [done | apply even_double]|]. specialize (Hbig Hnc). lia. }
  rewrite bind_Done, Ho, bind_Done, Hcr, bind_Done.
  destruct Heven as [Hel Her]. apply Nat.even_spec in Hel as [ml Hml], Her as [mr Hmr].
  assert (Hmc : exists mc, nc = 2 * mc) by (exists (length c - ml - mr); clear -Hsum Hml Hmr; lia). destruct Hmc as [mc Hmc].
  destruct (cut3 c ml mc mr ltac:(clear -Hsum Hml Hmr Hmc; lia)) as (L & C & Rr & -> & HL & HC & HR).
  destruct (cut3 co ml mc mr ltac:(clear -Hll HL HC HR; rewrite Hll, !app_length; lia)) as (OL & OC & OR & -> & HOL & HOC & HOR).
  destruct (Hcut A (complex_to_array L) (complex_to_array C) (complex_to_array Rr) (complex_to_array vrest)) as [Hs _];
    try (rewrite complex_to_array_length; clear -HL HC HR Hml Hmc Hmr; lia).
  destruct (Hcut A (complex_to_array OL) (complex_to_array OC) (complex_to_array OR) (complex_to_array crest)) as [Hos _];
    try (rewrite complex_to_array_length; clear -HOL HOC HOR Hml Hmc Hmr; lia).
  assert (Hedge := Hccut (A * A)%type L C Rr vrest ltac:(clear -HL Hml; lia) ltac:(clear -HC Hmc; lia) ltac:(clear -HR Hmr; lia)).
  assert (Hoedge := Hccut (A * A)%type OL OC OR crest ltac:(clear -HOL Hml; lia) ltac:(clear -HOC Hmc; lia) ltac:(clear -HOR Hmr; lia)).
  rewrite He. rewrite <- complex_to_array_app, !array_to_complex_Done, <- !app_assoc.
  rewrite !complex_to_array_app. rewrite Hs, Hos, !bind_Done, get_zipped_small. pose proof complex_monoid as M.
  rewrite !(product_sum_app cadd cmul (n0, n0)) by (done || congruence).
  assert (Hedges : foldl (fun sum '(a, b) => cadd sum (cmul a b)) (n0, n0) (zip (L ++ Rr) (OL ++ OR)) =
     cadd (product_sum cadd cmul (n0, n0) L OL) (product_sum cadd cmul (n0, n0) Rr OR)).
  { rewrite (edge_product_sum cadd cmul (n0, n0)) by done. apply product_sum_app; [done | congruence]. }
  destruct OC as [|x OC0] eqn:EC.
  - assert (C = []) as -> by (apply nil_length_inv; simpl in HOC; lia). cbn [complex_to_array].
    rewrite !bind_Done, Hedge, !bind_Done, Hoedge, bind_Done, Hedges. cbn [foldl].
    change (product_sum cadd cmul (n0, n0) [] []) with ((n0, n0) : A * A). by rewrite !(monoid_zero_l cadd (n0, n0) M).
  - destruct (complex_to_array (x :: OC0)) as [|y l0] eqn:El; [by destruct x|]. rewrite <- El, <- EC in *. clear El y l0.
    assert (Hne : nc <> 0) by (subst OC; simpl in HOC; lia).
    rewrite (dot_worker_total cadd (n0, n0) reg_sum_complex (fun l lo => product_sum cadd cmul (n0, n0) (pairs_of l) (pairs_of lo))); try done.
    + rewrite !bind_Done, Hedge, !bind_Done, Hoedge, bind_Done, Hedges, !pairs_of_complex_to_array. cbn [foldl].
      rewrite (monoid_zero_l cadd (n0, n0) M). f_equal. f_equal. destruct M as (Ma & Mc & _). rewrite !Ma. f_equal. apply Mc.
    + by rewrite complex_to_array_length, HC, <- Hmc.
    + auto.
    + rewrite !complex_to_array_length. congruence.
    + intros a b Hla Hlb. unfold reg_sum_complex. rewrite !(reg_sum_sum cadd (n0, n0)) by done.
      rewrite reg_bin_pairs by (rewrite ?Hla; done). apply sum_zip; [done|]. rewrite !pairs_of_length. congruence.
    + unfold reg_sum_complex. rewrite (reg_sum_sum cadd (n0, n0)) by done. rewrite pairs_of_splat by done. by apply sum_zeros.
    + intros a b a' b' Hla Hlb. rewrite !pairs_of_app_even by (by rewrite ?Hla, ?Hlb). apply product_sum_app; [done|].
      rewrite !pairs_of_length. congruence.
    + intros a b Hla Hlb. unfold reg_sum_complex. rewrite !(reg_sum_sum cadd (n0, n0)) by done. unfold reg_cbin.
      rewrite complex_to_array_length, zip_with_length, !pairs_of_length, pairs_of_complex_to_array, Hla, Hlb. split; [|done].
      apply Nat.even_spec in Hev as [k ->]. rewrite div2_double. lia.
Qed.

Lemma real_exact_sub : exact_sub (P := A).
Proof. split; intros; cbn; ring. Qed.
Lemma complex_exact_sub : exact_sub (P := A * A).
Proof. split; [intros [x y] | intros [x y] [x' y']]; cbn; unfold csub, cadd; cbn [fst snd]; f_equal; ring. Qed.
End sums.
