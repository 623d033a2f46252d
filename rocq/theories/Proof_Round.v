From Verif Require Import Proof_StatsOps Proof_Dot Spec_Round Proof_Prec Proof_PrecOps Proof_PrecDot Proof_PrecDot2.
From stdpp Require Import list_numbers tactics.
From Coq Require Import Lia.
Local Open Scope nat_scope.

Section machine.
Local Open Scope R_scope.
Context {A : Type} `{Num A} (val : A -> R) (usual : A -> Prop) (u : R) (HR : rounds val usual u) (Hu : 0 <= u).

(** [x] is a rounded sum of [l], where every number went through [k] additions at most *)
Definition near (k : nat) (l : list R) (x : A) : Prop := usual x /\ Rabs (val x - Rsum l) <= ((1 + u) ^ k - 1) * Rsum (map Rabs l).

Lemma pow_ge_1 k : 1 <= (1 + u) ^ k.
Proof. apply pow_R1_Rle. lra. Qed.
Lemma near_zero : near 0 [] n0.
Proof. destruct (r_zero _ _ _ HR) as [U E]. split; [exact U|]. rewrite E. unfold Rsum. cbn [map foldr Rpow_def.pow]. rewrite Rminus_0_r, Rabs_R0. lra. Qed.
Lemma near_one x : usual x -> near 0 [val x] x.
Proof. intros U. split; [exact U|]. unfold Rsum. cbn [map foldr Rpow_def.pow]. replace (val x - (val x + 0)) with 0 by ring. rewrite Rabs_R0. lra. Qed.
Lemma near_le k k' l x : (k <= k')%nat -> near k l x -> near k' l x.
Proof.
  intros Hk [U E]. split; [exact U|]. pose proof (Rsum_abs_pos l). assert ((1 + u) ^ k <= (1 + u) ^ k') by (apply Rle_pow; [lra|exact Hk]).
  assert (((1 + u) ^ k - 1) * Rsum (map Rabs l) <= ((1 + u) ^ k' - 1) * Rsum (map Rabs l)) by (apply Rmult_le_compat_r; lra). lra.
Qed.
Lemma near_perm k l l' x : l ≡ₚ l' -> near k l x -> near k l' x.
Proof.
  intros Hp [U E]. split; [exact U|]. assert (P : forall m m', m ≡ₚ m' -> Rsum m = Rsum m').
  { intros m m' Hm. unfold Rsum. induction Hm as [|z m m' Hm IH|z z' m|m m' m'' Hm1 IH1 Hm2 IH2]; cbn [foldr]; lra. }
  rewrite <- (P _ _ Hp), <- (P (map Rabs l) (map Rabs l')); [exact E|]. by rewrite Hp.
Qed.
Lemma near_add k l l' x y : near k l x -> near k l' y -> near (S k) (l ++ l') (x + y)%num.
Proof.
  intros [Ux Ex] [Uy Ey]. destruct (r_add _ _ _ HR x y Ux Uy) as [U E]. split; [exact U|]. rewrite Rsum_app, map_app, Rsum_app.
  pose proof (Rsum_abs_le l) as Hl. pose proof (Rsum_abs_pos l) as Hb. pose proof (Rsum_abs_le l') as Hl'. pose proof (Rsum_abs_pos l') as Hb'.
  pose proof (pow_ge_1 k) as Hp. cbn [Rpow_def.pow]. set (p := (1 + u) ^ k) in *. clearbody p.
  set (b := Rsum (map Rabs l)) in *. set (b' := Rsum (map Rabs l')) in *. clearbody b b'. set (t := Rsum l) in *. set (t' := Rsum l') in *. clearbody t t'.
  assert (V : Rabs (val x + val y) <= p * (b + b')).
  { replace (val x + val y) with ((t + (val x - t)) + (t' + (val y - t'))) by ring. pose proof (Rabs_triang (t + (val x - t)) (t' + (val y - t'))).
    pose proof (Rabs_triang t (val x - t)). pose proof (Rabs_triang t' (val y - t')). lra. }
  assert (W : u * Rabs (val x + val y) <= u * (p * (b + b'))) by (apply Rmult_le_compat_l; lra).
  replace (val (x + y)%num - (t + t')) with ((val (x + y)%num - (val x + val y)) + ((val x - t) + (val y - t'))) by ring.
  pose proof (Rabs_triang (val (x + y)%num - (val x + val y)) ((val x - t) + (val y - t'))). pose proof (Rabs_triang (val x - t) (val y - t')).
  replace (((1 + u) * p - 1) * (b + b')) with ((p - 1) * b + (p - 1) * b' + u * (p * (b + b'))) by ring. lra.
Qed.
Lemma near_fold k xs ls : Forall2 (fun y m => near k m y) xs ls -> forall k0 x l, (k <= k0)%nat -> near k0 l x ->
  near (k0 + length xs) (l ++ concat ls) (foldl nadd x xs).
Proof.
  intros HF. induction HF as [|y m xs ls Hy HF IH]; intros k0 x l Hk Hx.
  - cbn [foldl concat length]. by rewrite app_nil_r, Nat.add_0_r.
  - cbn [foldl concat length]. specialize (IH (Datatypes.S k0) (x + y)%num (l ++ m) ltac:(lia)). rewrite <- app_assoc in IH.
    replace (k0 + Datatypes.S (length xs))%nat with (Datatypes.S k0 + length xs)%nat by lia. apply IH. apply near_add; [exact Hx|]. by apply (near_le k).
Qed.
Lemma concat_ones xs : concat (map (fun x : A => [val x]) xs) = map val xs.
Proof. induction xs as [|x xs IH]; [done|]. cbn [map concat app]. by rewrite IH. Qed.
Lemma near_ones xs : (forall x, x ∈ xs -> usual x) -> Forall2 (fun y m => near 0 m y) xs (map (fun x => [val x]) xs).
Proof.
  intros Hx. induction xs as [|x xs IH]; constructor; [apply near_one, Hx; left|]. apply IH. intros y Hy. apply Hx. by right.
Qed.
Lemma near_plain xs : (forall x, x ∈ xs -> usual x) -> near (length xs) (map val xs) (foldl nadd n0 xs).
Proof.
  intros Hx. pose proof (near_fold 0 xs _ (near_ones xs Hx) 0 n0 [] (le_n _) near_zero) as N. by rewrite concat_ones in N.
Qed.
Lemma near_lanes k xs ls : Forall2 (fun y m => near k m y) xs ls -> near (k + (length xs - 1)) (concat ls) (reg_sum n0 nadd xs).
Proof.
  intros HF. destruct HF as [|y m xs ls Hy HF].
  - cbn [reg_sum concat]. apply (near_le 0); [lia|apply near_zero].
  - cbn [reg_sum concat length]. replace (Datatypes.S (length xs) - 1)%nat with (length xs) by lia. by apply (near_fold k xs ls HF k y m).
Qed.
Lemma near_within k l x : INR k * u <= 1 -> near k l x -> within u (2 * INR k) l (val x).
Proof.
  intros Hk [_ E]. pose proof (Rsum_abs_pos l). pose proof (pow_small u k Hu Hk). unfold within.
  assert (((1 + u) ^ k - 1) * Rsum (map Rabs l) <= 2 * INR k * u * Rsum (map Rabs l)) by (apply Rmult_le_compat_r; lra). lra.
Qed.
End machine.

(** A register of sums, lane by lane *)
Lemma plain_lanes {A} `{Num A} r (l : list (list A)) : (forall b, b ∈ l -> length b = reg_len r) ->
  plain_total r l = map (fun j => foldl nadd n0 (lane j l)) (seq 0 (reg_len r)).
Proof.
  intros Hl. unfold plain_total.
  assert (G : forall l, (forall b, b ∈ l -> length b = reg_len r) ->
    length (foldl (reg_bin nadd) (splat r n0) l) = reg_len r /\
    forall j, j < reg_len r -> nth j (foldl (reg_bin nadd) (splat r n0) l) n0 = foldl nadd n0 (lane j l)).
  { clear l Hl. induction l as [|b l IH] using rev_ind; intros Hl.
    - cbn [foldl lane map]. unfold splat. rewrite replicate_length. split; [done|]. intros j Hj. by apply nth_same.
    - destruct (IH (fun b' Hb => Hl b' (proj2 (elem_of_app _ _ _) (or_introl Hb)))) as [L1 G]. assert (Hb : length b = reg_len r) by (apply Hl; apply elem_of_app; right; left).
      unfold lane. rewrite foldl_app. cbn [foldl]. unfold reg_bin at 1 3. rewrite zip_with_length, L1, Hb. split; [lia|]. intros j Hj.
      rewrite map_app, foldl_app. cbn [map foldl]. unfold lane in G. rewrite <- (G j Hj). apply nth_zip; lia. }
  destruct (G l Hl) as [L1 G']. apply (List.nth_ext _ _ n0 (foldl nadd n0 (lane 0 l))).
  { rewrite map_length, seq_length. exact L1. }
  intros j Hj. rewrite (map_nth (fun j => foldl nadd n0 (lane j l))). rewrite L1 in Hj. rewrite seq_nth by done. cbn [Nat.add]. by apply G'.
Qed.
(** Every second number of the registers *)
Lemma pick_halves {A} `{Num A} h (prods : list (list A)) (cps : list (A * A)) (f : nat -> nat) (p : A * A -> A) :
  (forall b, b ∈ prods -> length b = 2 * h) -> concat (map pairs_of prods) = cps ->
  (forall j, f j = 2 * j + f 0) -> f 0 <= 1 -> (forall a b : A, p (a, b) = nth (f 0) [a; b] n0) ->
  concat (map (fun b => map (fun j => nth j b n0) (map f (seq 0 h))) prods) = map p cps.
Proof.
  intros Hpl Hps Hfj Hf1 Hp. rewrite <- Hps, concat_map_map, map_map. f_equal. apply map_ext_in. intros b Hb. specialize (Hpl b (proj2 (elem_of_list_In _ _) Hb)).
  rewrite map_map. clear -Hpl Hfj Hf1 Hp. revert b Hpl.
  assert (G : forall i b pre, length b = 2 * h -> length pre = 2 * i -> map (fun j => nth (f j) (pre ++ b) n0) (seq i h) = map p (pairs_of b)).
  { induction h as [|h IH]; intros i b pre Hb Hpre.
    - apply nil_length_inv in Hb as ->. done.
    - destruct b as [|x [|y b]]; try (cbn [length] in Hb; lia). cbn [seq map pairs_of]. f_equal.
      + rewrite Hfj, app_nth2, Hpre, Hp by lia. replace (2 * i + f 0 - 2 * i) with (f 0) by lia. destruct (f 0) as [|[|]] eqn:E0; [done|done|lia].
      + replace (pre ++ x :: y :: b) with ((pre ++ [x; y]) ++ b) by (by rewrite <- app_assoc). apply IH; [cbn [length] in Hb; lia|rewrite app_length; cbn [length]; lia]. }
  intros b Hb. apply (G 0 b []); done.
Qed.

Section picked.
Context {A : Type} `{Num A} (val : A -> R) (usual : A -> Prop) (u : R) (HR : rounds val usual u) (Hu : (0 <= u)%R).
Notation near := (near val usual u).

Lemma picked_near w (prods : list (list A)) (js : list nat) (items : list A) :
  (forall b, b ∈ prods -> length b = w) -> (forall j, j ∈ js -> j < w) ->
  concat (map (fun b => map (fun j => nth j b n0) js) prods) = items -> (forall x, x ∈ items -> usual x) ->
  near (length prods + (length js - 1) + 1) (map val items) (n0 + reg_sum n0 nadd (map (fun j => foldl nadd n0 (lane j prods)) js))%num.
Proof.
  intros Hl Hj Hitems Hx.
  assert (HF : Forall2 (fun y m => near (length prods) m y) (map (fun j => foldl nadd n0 (lane j prods)) js) (map (fun j => map val (lane j prods)) js)).
  { assert (Hjs : forall j, j ∈ js -> forall x, x ∈ lane j prods -> usual x).
    { intros j Hjj x (b & -> & Hb)%elem_of_list_fmap. apply Hx. rewrite <- Hitems. apply elem_of_list_In, in_concat.
      exists (map (fun j => nth j b n0) js). split; apply in_map_iff; [exists b|exists j]; (split; [done|]); by apply elem_of_list_In. }
    clear -Hjs HR Hu. induction js as [|j js IH]; cbn [map]; constructor.
    - pose proof (near_plain val usual u HR Hu (lane j prods) (Hjs j ltac:(left))) as N. unfold lane at 1 in N. by rewrite map_length in N.
    - apply IH. intros j' Hj'. apply Hjs. by right. }
  pose proof (near_lanes val usual u HR Hu _ _ _ HF) as N. rewrite map_length in N.
  rewrite Nat.add_1_r. change (map val items) with ([] ++ map val items). apply (near_add val usual u HR Hu); [apply (near_le val usual u Hu 0); [lia|by apply near_zero]|].
  apply (near_perm val usual u _ (concat (map (fun j => map val (lane j prods)) js))); [|exact N].
  rewrite <- (map_map (fun j => lane j prods) (map val)), <- concat_map_map, <- Hitems. apply Permutation_map, picked_perm.
Qed.
End picked.

Section sums.
Context {A : Type} `{Num A} (val : A -> R) (usual : A -> Prop) (u : R) (HR : rounds val usual u) (Hu : (0 <= u)%R).
Notation near := (near val usual u).

(** Registers and what is left and right of them *)
Lemma around_near k ne n w cl el all chunk edge : 0 < w -> k * w <= n -> ne < 2 * w -> near (k + (w - 1) + 1) cl chunk -> near ne el edge -> cl ++ el ≡ₚ all ->
  near (depth n w) all (chunk + edge)%num.
Proof.
  intros Hw Hk Hne Hc He Hp. apply (near_perm val usual u _ _ _ _ Hp). assert (Hkn : k <= n / w) by (apply Nat.div_le_lower_bound; lia).
  apply (near_le val usual u Hu (S (k + 2 * w - 1))); [unfold depth; lia|].
  apply (near_add val usual u HR Hu); [apply (near_le val usual u Hu (k + (w - 1) + 1))|apply (near_le val usual u Hu ne)]; try lia; assumption.
Qed.
Lemma real_center_near w prods items : (forall b, b ∈ prods -> length b = w) -> concat prods = items -> (forall x, x ∈ items -> usual x) ->
  near (length prods + (w - 1) + 1) (map val items) (n0 + reg_sum n0 nadd (map (fun j => foldl nadd n0 (lane j prods)) (seq 0 w)))%num.
Proof.
  intros Hpl Hps Hx. pose proof (picked_near val usual u HR Hu w prods (seq 0 w) items Hpl) as N. rewrite seq_length in N. apply N; [| |exact Hx].
  - intros j Hj. apply elem_of_seq in Hj. lia.
  - rewrite <- Hps. f_equal. rewrite <- (map_id prods) at 2. apply map_ext_in. intros b Hb. rewrite <- (Hpl b) by (by apply elem_of_list_In). apply map_nth_seq.
Qed.
Lemma cplx_center_near r h prods (cps : list (A * A)) : reg_len r = 2 * h -> (forall b, b ∈ prods -> length b = 2 * h) -> concat (map pairs_of prods) = cps ->
  (forall x, x ∈ cps -> usual (fst x) /\ usual (snd x)) -> let chunk := cadd (n0, n0) (reg_sum_complex (plain_total r prods)) in
  near (length prods + (h - 1) + 1) (map val (map fst cps)) (fst chunk) /\ near (length prods + (h - 1) + 1) (map val (map snd cps)) (snd chunk).
Proof.
  intros Hh Hpl Hps Hx chunk. unfold chunk, reg_sum_complex. rewrite (plain_lanes r prods) by (intros b Hb; rewrite Hh; auto).
  rewrite Hh, pairs_of_lanes0, reg_sum_pairs, (map_map _ fst), (map_map _ snd). unfold cadd. cbn [fst snd].
  assert (G : forall (f : nat -> nat) (p : A * A -> A), (forall j, f j = 2 * j + f 0) -> f 0 <= 1 -> (forall a b : A, p (a, b) = nth (f 0) [a; b] n0) ->
    (forall x, x ∈ cps -> usual (p x)) ->
    near (length prods + (h - 1) + 1) (map val (map p cps)) (n0 + reg_sum n0 nadd (map (fun j => foldl nadd n0 (lane (f j) prods)) (seq 0 h)))%num).
  { intros f p Hfj Hf1 Hp Up. pose proof (picked_near val usual u HR Hu (2 * h) prods (map f (seq 0 h)) (map p cps) Hpl) as N.
    rewrite map_length, seq_length, (map_map f (fun j => foldl nadd n0 (lane j prods))) in N. apply N.
    - intros j (i & -> & Hi)%elem_of_list_fmap. apply elem_of_seq in Hi. rewrite Hfj. clear -Hi Hf1. lia.
    - by apply pick_halves.
    - intros x (y & -> & Hy)%elem_of_list_fmap. by apply Up. }
  split.
  - apply (G (fun j => 2 * j) fst); [intros; lia|lia|done|]. intros x Hin. exact (proj1 (Hx x Hin)).
  - apply (G (fun j => 2 * j + 1) snd); [intros; lia|lia|done|]. intros x Hin. exact (proj2 (Hx x Hin)).
Qed.

Lemma regs_of_regs r addr (C : list A) : reg_ok r -> length C mod reg_len r = 0 -> addr mod reg_bytes r = 0 ->
  exists regs, regs_of r addr C = Done regs /\ length regs * reg_len r = length C /\ (forall b, b ∈ regs -> length b = reg_len r) /\ concat regs = C.
Proof.
  intros Hr Hm Ha. assert (Hw : 0 < reg_len r) by (by destruct Hr as (_ & ? & _)). unfold regs_of. rewrite regs_check_true by done. cbn [assert_]. rewrite bind_Done.
  pose proof (chunks_fuel_blocks (length C) (reg_len r) C Hw (le_n _) Hm) as Hb. pose proof (chunks_fuel_concat (length C) (reg_len r) C Hw (le_n _)) as Hc.
  assert (G : forall l : list (list A), (forall b, b ∈ l -> length b = reg_len r) -> length l * reg_len r = length (concat l)).
  { clear. intros l Hb. induction l as [|b l IH]; [done|]. cbn [length concat]. rewrite app_length, <- IH by (intros; apply Hb; by right). rewrite (Hb b) by left. lia. }
  eexists. split; [reflexivity|]. split_and!; [|exact Hb|exact Hc]. specialize (G _ Hb). rewrite Hc in G. exact G.
Qed.
Lemma fold_regs (reg_op : list A -> list A) r l : foldl (fun sum reg => reg_bin nadd sum (reg_op reg)) (splat r n0) l = plain_total r (map reg_op l).
Proof. unfold plain_total. generalize (splat r n0). induction l as [|x l IH]; intros acc; [done|]. cbn [foldl map]. apply IH. Qed.
Lemma fold_map {Q B} (add : Q -> Q -> Q) (f : B -> Q) l acc : foldl (fun sum x => add sum (f x)) acc l = foldl add acc (map f l).
Proof. revert acc. induction l as [|x l IH]; intros acc; [done|]. cbn [foldl map]. apply IH. Qed.

Lemma real_sum_near reg_op op r addr s order (v : dvec A) l : reg_ok r -> elem_aligned r addr -> vdata v = Done l -> simd_fits r addr (length l) ->
  (forall b, reg_op b = map op b) -> (forall x, x ∈ l -> usual (op x)) ->
  exists x, simd_sum reg_op op r addr s order v = Done x /\ near (depth (length l) (reg_len r)) (map val (map op l)) x.
Proof.
  intros Hr Ha Hv Hf Hop Hx. assert (Hw : 0 < reg_len r) by (by destruct Hr as (_ & ? & _)). destruct (vdata_split v l Hv) as (rest & He & Hn). unfold simd_sum.
  rewrite (vdata_slice v l Hv), bind_Done.
  destruct (alignment_parts r addr (length l) Hr Ha Hf) as
    (part & from & to & nl & nc & nr & Hpart & Hcr & Hsum & Hfrom & Hal & Hm & _ & Hnr & _ & Hcut & _).
  assert (Hfew := few_edges r addr (length l) part nl nc nr Hr Ha Hpart Hsum Hnr (fun B L C R rest HL HC HR => proj2 (Hcut B L C R rest HL HC HR))).
  rewrite Hpart, bind_Done, Hcr, bind_Done. destruct (cut3 l nl nc nr Hsum) as (L & C & Rr & -> & HL & HC & HRr).
  destruct (Hcut A L C Rr rest HL HC HRr) as [Hs Hedge]. rewrite He, <- !app_assoc, Hs, bind_Done, get_chunked_small.
  assert (Hel : forall x, x ∈ map op (L ++ Rr) -> usual x).
  { intros x (y & -> & Hy)%elem_of_list_fmap. apply Hx. rewrite !elem_of_app in *. tauto. }
  pose proof (near_plain val usual u HR Hu (map op (L ++ Rr)) Hel) as Ne. rewrite map_length, app_length, HL, HRr in Ne.
  assert (Hperm : map val (map op C) ++ map val (map op (L ++ Rr)) ≡ₚ map val (map op (L ++ C ++ Rr))).
  { rewrite <- !map_app. do 2 apply Permutation_map. apply parts_perm. }
  destruct C as [|x C0] eqn:EC.
  - rewrite bind_Done, Hedge, bind_Done, (fold_map nadd op). cbn [map foldl]. eexists. split; [reflexivity|].
    apply (around_near 0 (nl + nr) _ _ _ _ _ _ _ Hw ltac:(lia) Hfew) with (2 := Ne) (3 := Hperm). apply (near_le val usual u Hu 0); [lia|by apply near_zero].
  - rewrite <- EC in *. cbn [fst]. assert (Hne : nc <> 0) by (subst C; simpl in HC; lia).
    destruct (regs_of_regs r (addr + (from + 0) * elem_size r) C Hr) as (regs & -> & Hlen & Hb & Hc); [by rewrite HC|rewrite Nat.add_0_r; auto|].
    rewrite !bind_Done, Hedge, bind_Done, (fold_map nadd op), (fold_regs reg_op). cbn [map foldl]. eexists. split; [reflexivity|].
    assert (Hpl : forall b, b ∈ map reg_op regs -> length b = reg_len r).
    { intros b (b' & -> & Hb')%elem_of_list_fmap. rewrite Hop, map_length. auto. }
    unfold reg_sum_real. rewrite (plain_lanes r (map reg_op regs) Hpl).
    assert (Hitems : concat (map reg_op regs) = map op C).
    { rewrite <- Hc, concat_map_map. f_equal. apply map_ext. exact Hop. }
    pose proof (real_center_near (reg_len r) (map reg_op regs) (map op C) Hpl Hitems) as Nc. rewrite map_length in Nc.
    apply (around_near (length regs) (nl + nr) _ _ _ _ _ _ _ Hw) with (4 := Ne) (5 := Hperm); [rewrite Hlen, !app_length; lia|exact Hfew|].
    apply Nc. intros y (z & -> & Hz)%elem_of_list_fmap. apply Hx. rewrite !elem_of_app. auto.
Qed.

Lemma cplx_around_near h k ne n cl el all (chunk : A * A) (edges : list (A * A)) : 0 < h -> k * h <= n -> ne < 2 * h -> length edges = ne ->
  (forall x, x ∈ edges -> usual (fst x) /\ usual (snd x)) ->
  near (k + (h - 1) + 1) (map val (map fst cl)) (fst chunk) -> near (k + (h - 1) + 1) (map val (map snd cl)) (snd chunk) -> el = edges -> cl ++ el ≡ₚ all ->
  let x := cadd chunk (foldl cadd (n0, n0) edges) in
  near (depth n h) (map val (map fst all)) (fst x) /\ near (depth n h) (map val (map snd all)) (snd x).
Proof.
  intros Hh Hk Hne Hlen Hx H1 H2 -> Hp x. unfold x. rewrite fold_pairs. unfold cadd. cbn [fst snd].
  assert (G : forall (p : A * A -> A), (forall y, y ∈ edges -> usual (p y)) -> near ne (map val (map p edges)) (foldl nadd n0 (map p edges)) /\
    map val (map p cl) ++ map val (map p edges) ≡ₚ map val (map p all)).
  { intros p Up. split.
    - rewrite <- Hlen, <- (map_length p edges). apply (near_plain val usual u HR Hu). intros y (z & -> & Hz)%elem_of_list_fmap. by apply Up.
    - rewrite <- !map_app. by do 2 apply Permutation_map. }
  split.
  - destruct (G fst (fun y Hy => proj1 (Hx y Hy))) as [N P]. exact (around_near k ne n h _ _ _ _ _ Hh Hk Hne H1 N P).
  - destruct (G snd (fun y Hy => proj2 (Hx y Hy))) as [N P]. exact (around_near k ne n h _ _ _ _ _ Hh Hk Hne H2 N P).
Qed.

Lemma cplx_sum_near reg_op op r addr s order (v : dvec A) c : reg_ok r -> elem_aligned r addr -> cplx v c -> whole_points v -> address_ok r addr v ->
  (forall b, Nat.even (length b) = true -> reg_op b = complex_to_array (map op (pairs_of b))) -> (forall x, x ∈ c -> usual (fst (op x)) /\ usual (snd (op x))) ->
  exists x, simd_sum_complex reg_op op r addr s order v = Done x /\
    near (depth (length c) (reg_len r / 2)) (map val (map fst (map op c))) (fst x) /\ near (depth (length c) (reg_len r / 2)) (map val (map snd (map op c))) (snd x).
Proof.
  intros Hr Ha Hvc Hw Hok Hop Hx. pose proof (address_ok_cplx r addr v c Hvc Hok) as Hf. destruct Hvc as [Hc Hv].
  destruct (vdata_split v _ Hv) as (rest & He & Hn). unfold simd_sum_complex.
  assert (Hrev : Nat.even (length rest) = true).
  { specialize (Hw Hc). unfold alloc_len, s_len in Hw. fold (elems v) in Hw. rewrite He, app_length, complex_to_array_length in Hw.
    by rewrite Nat.even_add, even_double in Hw; destruct (Nat.even (length rest)). }
  destruct (exists_complex rest Hrev) as [crest ->].
  rewrite (vdata_slice v _ Hv), bind_Done, complex_to_array_length.
  assert (Hwl : 0 < reg_len r) by (by destruct Hr as (_ & ? & _)). assert (Hev : Nat.even (reg_len r) = true) by (by destruct Hr as (_ & _ & ?)).
  assert (Hsf : simd_fits r addr (2 * length c)) by (destruct Hf as [[? _]|?]; [by left | by right]).
  destruct (alignment_parts r addr (2 * length c) Hr Ha Hsf) as
    (part & from & to & nl & nc & nr & Hpart & Hcr & Hsum & Hfrom & Hal & Hm & Hpar & Hnr & Hbig & Hcut & Hccut).
  assert (Hfew := few_edges r addr (2 * length c) part nl nc nr Hr Ha Hpart Hsum Hnr (fun B L C R rest HL HC HR => proj2 (Hcut B L C R rest HL HC HR))).
  assert (Heven : Nat.even nl = true /\ Nat.even nr = true).
  { destruct (decide (nc = 0)) as [E0|Hnc].
    - specialize (Hnr E0). subst nc nr. split; [|done]. rewrite !Nat.add_0_r in Hsum. rewrite Hsum. apply even_double.
    - destruct Hf as [[_ Hp]|Hlt]; [apply Hpar; [done | apply even_double]|]. specialize (Hbig Hnc). lia. }
  rewrite Hpart, bind_Done, Hcr, bind_Done.
  destruct Heven as [Hel Her]. apply Nat.even_spec in Hel as [ml Hml], Her as [mr Hmr].
  assert (Hmc : exists mc, nc = 2 * mc) by (exists (length c - ml - mr); clear -Hsum Hml Hmr; lia). destruct Hmc as [mc Hmc].
  destruct (cut3 c ml mc mr ltac:(clear -Hsum Hml Hmr Hmc; lia)) as (L & C & Rr & -> & HL & HC & HRr).
  destruct (Hcut A (complex_to_array L) (complex_to_array C) (complex_to_array Rr) (complex_to_array crest)) as [Hs _];
    try (rewrite complex_to_array_length; clear -HL HC HRr Hml Hmc Hmr; lia).
  specialize (Hccut (A * A)%type L C Rr crest ltac:(clear -HL Hml; lia) ltac:(clear -HC Hmc; lia) ltac:(clear -HRr Hmr; lia)).
  rewrite He. rewrite <- complex_to_array_app, array_to_complex_Done, <- !app_assoc.
  rewrite !complex_to_array_app. rewrite Hs, bind_Done, get_chunked_small.
  apply Nat.even_spec in Hev as [h Hh]. rewrite Hh in *. rewrite Proof_SimdOps.div2_double.
  assert (Hels : forall x, x ∈ map op (L ++ Rr) -> usual (fst x) /\ usual (snd x)).
  { intros x (y & -> & Hy)%elem_of_list_fmap. apply Hx. rewrite !elem_of_app in *. tauto. }
  assert (Hlen : length (map op (L ++ Rr)) = ml + mr) by (rewrite map_length, app_length; clear -HL HRr; lia).
  assert (Hfew' : ml + mr < 2 * h) by (clear -Hfew Hml Hmr; lia).
  assert (Hperm : map op C ++ map op (L ++ Rr) ≡ₚ map op (L ++ C ++ Rr)).
  { rewrite <- !map_app. apply Permutation_map. apply parts_perm. }
  destruct C as [|x C0] eqn:EC.
  - cbn [complex_to_array]. rewrite !bind_Done, Hccut, bind_Done, (fold_map cadd op). cbn [foldl]. eexists. split; [reflexivity|].
    apply (cplx_around_near h 0 (ml + mr) _ (map op []) _ _ (n0, n0) _ ltac:(clear -Hwl; lia) ltac:(clear; lia) Hfew' Hlen Hels) with (3 := eq_refl) (4 := Hperm);
      (apply (near_le val usual u Hu 0); [clear; lia|by apply near_zero]).
  - destruct (complex_to_array (x :: C0)) as [|y l0] eqn:El; [by destruct x|]. rewrite <- El, <- EC in *. clear El y l0.
    cbn [fst]. assert (Hne : nc <> 0) by (subst C; simpl in HC; lia).
    destruct (regs_of_regs r (addr + (from + 0) * elem_size r) (complex_to_array C) Hr) as (regs & -> & Hlr & Hb & Hcr').
    { by rewrite complex_to_array_length, HC, <- Hmc, Hh. } { rewrite Nat.add_0_r. auto. }
    rewrite !bind_Done, Hccut, bind_Done, (fold_map cadd op), (fold_regs reg_op). cbn [map foldl]. eexists. split; [reflexivity|].
    rewrite Hh in Hb. assert (Hopb : forall b, b ∈ regs -> reg_op b = complex_to_array (map op (pairs_of b))).
    { intros b Hbb. apply Hop. rewrite (Hb b Hbb). apply even_double. }
    assert (Hpl : forall b, b ∈ map reg_op regs -> length b = 2 * h).
    { intros b (b' & -> & Hb')%elem_of_list_fmap. rewrite (Hopb b' Hb'), complex_to_array_length, map_length, pairs_of_length, (Hb b' Hb'), Proof_SimdOps.div2_double. done. }
    assert (Hps : concat (map pairs_of (map reg_op regs)) = map op C).
    { rewrite map_map. transitivity (map op (pairs_of (concat regs))); [|by rewrite Hcr', pairs_of_complex_to_array].
      clear -Hb Hopb. induction regs as [|b regs IH]; [done|]. cbn [map concat]. assert (Eb : length b = 2 * h) by (apply Hb; left).
      rewrite IH; [|intros b' Hb'; apply Hb; by right|intros b' Hb'; apply Hopb; by right]. rewrite (Hopb b) by left.
      rewrite pairs_of_complex_to_array. rewrite pairs_of_app_even; [|rewrite Eb; apply even_double]. by rewrite map_app. }
    destruct (cplx_center_near r h (map reg_op regs) (map op C) Hh Hpl Hps) as [N1 N2].
    { intros y (z & -> & Hz)%elem_of_list_fmap. apply Hx. rewrite !elem_of_app. auto. }
    rewrite map_length in N1, N2. rewrite complex_to_array_length, Hh in Hlr.
    apply (cplx_around_near h (length regs) (ml + mr) (length (L ++ C ++ Rr)) (map op C) _ _ _ _ ltac:(clear -Hwl; lia) ltac:(rewrite !app_length; clear -Hlr; lia) Hfew' Hlen Hels N1 N2 eq_refl Hperm).
Qed.

Lemma real_dot_near r addr s order (v o : dvec A) l lo rest : reg_ok r -> elem_aligned r addr -> reals v l -> vdata o = Done (lo ++ rest) -> length lo = length l ->
  simd_fits r addr (length l) -> (forall x, x ∈ zip_with nmul l lo -> usual x) ->
  exists x, dot_product r addr s order v o = Done (Ok x) /\ near (depth (length l) (reg_len r)) (map val (zip_with nmul l lo)) x.
Proof.
  intros Hr Ha [Hc Hv] Ho Hll Hf Hx. assert (Hw : 0 < reg_len r) by (by destruct Hr as (_ & ? & _)).
  destruct (vdata_split v l Hv) as (vrest & He & Hn). unfold dot_product, dot_real. rewrite Hc.
  rewrite (vdata_slice v l Hv), bind_Done.
  destruct (alignment_parts r addr (length l) Hr Ha Hf) as
    (part & from & to & nl & nc & nr & Hpart & Hcr & Hsum & Hfrom & Hal & Hm & _ & Hnr & _ & Hcut & _).
  assert (Hfew := few_edges r addr (length l) part nl nc nr Hr Ha Hpart Hsum Hnr (fun B L C R rest HL HC HR => proj2 (Hcut B L C R rest HL HC HR))).
  rewrite Hpart, bind_Done, Ho, bind_Done, Hcr, bind_Done. destruct (cut3 l nl nc nr Hsum) as (L & C & Rr & -> & HL & HC & HRr).
  destruct (cut3 lo nl nc nr ltac:(congruence)) as (OL & OC & OR & -> & HOL & HOC & HOR).
  destruct (Hcut A L C Rr vrest HL HC HRr) as [Hs Hedge]. rewrite He, <- !app_assoc, Hs.
  destruct (Hcut A OL OC OR rest HOL HOC HOR) as [Hos Hoedge]. rewrite Hos, !bind_Done, get_zipped_small.
  rewrite zip_app3 in Hx |- * by congruence.
  assert (Hels : forall x, x ∈ zip_with nmul (L ++ Rr) (OL ++ OR) -> usual x).
  { intros x Hin. apply Hx. rewrite zip_with_app in Hin by congruence. rewrite !elem_of_app in *. tauto. }
  assert (Hlen : length (zip_with nmul (L ++ Rr) (OL ++ OR)) = nl + nr) by (rewrite zip_with_length, !app_length; lia).
  pose proof (near_plain val usual u HR Hu _ Hels) as Ne. rewrite Hlen in Ne.
  assert (Hperm : map val (zip_with nmul C OC) ++ map val (zip_with nmul (L ++ Rr) (OL ++ OR)) ≡ₚ map val (zip_with nmul L OL ++ zip_with nmul C OC ++ zip_with nmul Rr OR)).
  { rewrite <- map_app. apply Permutation_map. rewrite zip_with_app by congruence. apply parts_perm. }
  destruct OC as [|z OC0] eqn:EC.
  - assert (C = []) as -> by (apply nil_length_inv; simpl in HOC; lia).
    rewrite bind_Done, Hedge, !bind_Done, Hoedge, bind_Done, (zip_fold nadd nmul). cbn [foldl]. eexists. split; [reflexivity|].
    apply (around_near 0 (nl + nr) _ _ _ _ _ _ _ Hw ltac:(lia) Hfew) with (2 := Ne) (3 := Hperm). apply (near_le val usual u Hu 0); [lia|by apply near_zero].
  - rewrite <- EC in *. assert (Hne : nc <> 0) by (subst OC; simpl in HOC; lia).
    destruct (dot_worker_regs (fun b => b) (zip_with nmul) reg_sum_real (reg_bin nmul) plain_total r (addr + from * elem_size r) C OC) as (prods & -> & Hpk & Hpl & Hps).
    { done. } { by rewrite HC. } { auto. } { congruence. } { done. }
    { intros a b a' b' Hla Hlb. by rewrite zip_with_app by congruence. }
    { intros a b Hla Hlb. split; [|done]. unfold reg_bin. rewrite zip_with_length. lia. }
    rewrite !bind_Done, Hedge, !bind_Done, Hoedge, bind_Done, (zip_fold nadd nmul). cbn [foldl]. rewrite (plain_lanes r prods Hpl). unfold reg_sum_real.
    eexists. split; [reflexivity|]. rewrite map_id in Hps.
    pose proof (real_center_near (reg_len r) prods (zip_with nmul C OC) Hpl Hps) as Nc.
    apply (around_near (length prods) (nl + nr) _ _ _ _ _ _ _ Hw) with (4 := Ne) (5 := Hperm); [rewrite Hpk, !app_length; lia|exact Hfew|].
    apply Nc. intros y Hy. apply Hx. rewrite !elem_of_app. auto.
Qed.

Lemma cplx_dot_near r addr s order (v o : dvec A) c co crest : reg_ok r -> elem_aligned r addr -> cplx v c -> cplx o (co ++ crest) -> length co = length c ->
  vdomain v = vdomain o -> whole_points v -> address_ok r addr v -> (forall x, x ∈ zip_with cmul c co -> usual (fst x) /\ usual (snd x)) ->
  exists x, dot_product_complex r addr s order v o = Done (Ok x) /\
    near (depth (length c) (reg_len r / 2)) (map val (map fst (zip_with cmul c co))) (fst x) /\
    near (depth (length c) (reg_len r / 2)) (map val (map snd (zip_with cmul c co))) (snd x).
Proof.
  intros Hr Ha Hvc [Hoc Ho] Hll Hdom Hw Hok Hx. pose proof (address_ok_cplx r addr v c Hvc Hok) as Hf. destruct Hvc as [Hc Hv].
  destruct (vdata_split v _ Hv) as (rest & He & Hn). unfold dot_product_complex, dot_complex. rewrite Hc, Hoc, Hdom. cbn [negb orb].
  assert (Hdd : ddomain_eqb (vdomain o) (vdomain o) = true) by (by destruct (vdomain o)). rewrite Hdd. cbn [negb].
  assert (Hrev : Nat.even (length rest) = true).
  { specialize (Hw Hc). unfold alloc_len, s_len in Hw. fold (elems v) in Hw. rewrite He, app_length, complex_to_array_length in Hw.
    by rewrite Nat.even_add, even_double in Hw; destruct (Nat.even (length rest)). }
  destruct (exists_complex rest Hrev) as [vrest ->].
  rewrite (vdata_slice v _ Hv), bind_Done, complex_to_array_length.
  assert (Hwl : 0 < reg_len r) by (by destruct Hr as (_ & ? & _)). assert (Hev : Nat.even (reg_len r) = true) by (by destruct Hr as (_ & _ & ?)).
  assert (Hsf : simd_fits r addr (2 * length c)) by (destruct Hf as [[? _]|?]; [by left | by right]).
  destruct (alignment_parts r addr (2 * length c) Hr Ha Hsf) as
    (part & from & to & nl & nc & nr & Hpart & Hcr & Hsum & Hfrom & Hal & Hm & Hpar & Hnr & Hbig & Hcut & Hccut).
  assert (Hfew := few_edges r addr (2 * length c) part nl nc nr Hr Ha Hpart Hsum Hnr (fun B L C R rest HL HC HR => proj2 (Hcut B L C R rest HL HC HR))).
  assert (Heven : Nat.even nl = true /\ Nat.even nr = true).
  { destruct (decide (nc = 0)) as [E0|Hnc].
    - specialize (Hnr E0). subst nc nr. split; [|done]. rewrite !Nat.add_0_r in Hsum. rewrite Hsum. apply even_double.
    - destruct Hf as [[_ Hp]|Hlt]; [apply Hpar; [done | apply even_double]|]. specialize (Hbig Hnc). lia. }
  rewrite Hpart, bind_Done, Ho, bind_Done, Hcr, bind_Done.
  destruct Heven as [Hel Her]. apply Nat.even_spec in Hel as [ml Hml], Her as [mr Hmr].
  assert (Hmc : exists mc, nc = 2 * mc) by (exists (length c - ml - mr); clear -Hsum Hml Hmr; lia). destruct Hmc as [mc Hmc].
  destruct (cut3 c ml mc mr ltac:(clear -Hsum Hml Hmr Hmc; lia)) as (L & C & Rr & -> & HL & HC & HRr).
  destruct (cut3 co ml mc mr ltac:(clear -Hll HL HC HRr; rewrite Hll, !app_length; lia)) as (OL & OC & OR & -> & HOL & HOC & HOR).
  destruct (Hcut A (complex_to_array L) (complex_to_array C) (complex_to_array Rr) (complex_to_array vrest)) as [Hs _];
    try (rewrite complex_to_array_length; clear -HL HC HRr Hml Hmc Hmr; lia).
  destruct (Hcut A (complex_to_array OL) (complex_to_array OC) (complex_to_array OR) (complex_to_array crest)) as [Hos _];
    try (rewrite complex_to_array_length; clear -HOL HOC HOR Hml Hmc Hmr; lia).
  assert (Hedge := Hccut (A * A)%type L C Rr vrest ltac:(clear -HL Hml; lia) ltac:(clear -HC Hmc; lia) ltac:(clear -HRr Hmr; lia)).
  assert (Hoedge := Hccut (A * A)%type OL OC OR crest ltac:(clear -HOL Hml; lia) ltac:(clear -HOC Hmc; lia) ltac:(clear -HOR Hmr; lia)).
  rewrite He. rewrite <- complex_to_array_app, !array_to_complex_Done, <- !app_assoc.
  rewrite !complex_to_array_app. rewrite Hs, Hos, !bind_Done, get_zipped_small.
  rewrite zip_app3 in Hx |- * by congruence.
  apply Nat.even_spec in Hev as [h Hh]. rewrite Hh in Hfew, Hwl |- *. rewrite Proof_SimdOps.div2_double.
  assert (Hels : forall x, x ∈ zip_with cmul (L ++ Rr) (OL ++ OR) -> usual (fst x) /\ usual (snd x)).
  { intros x Hin. apply Hx. rewrite zip_with_app in Hin by congruence. rewrite !elem_of_app in *. tauto. }
  assert (Hlen : length (zip_with cmul (L ++ Rr) (OL ++ OR)) = ml + mr) by (rewrite zip_with_length, !app_length; clear -HL HRr HOL HOR; lia).
  assert (Hfew' : ml + mr < 2 * h) by (clear -Hfew Hml Hmr; lia).
  assert (Hperm : zip_with cmul C OC ++ zip_with cmul (L ++ Rr) (OL ++ OR) ≡ₚ zip_with cmul L OL ++ zip_with cmul C OC ++ zip_with cmul Rr OR).
  { rewrite zip_with_app by congruence. apply parts_perm. }
  assert (Hh0 : 0 < h) by (clear -Hwl; lia).
  destruct OC as [|z OC0] eqn:EC.
  - assert (C = []) as -> by (apply nil_length_inv; simpl in HOC; lia). cbn [complex_to_array].
    rewrite !bind_Done, Hedge, !bind_Done, Hoedge, bind_Done, (zip_fold cadd cmul). cbn [foldl]. eexists. split; [reflexivity|].
    apply (cplx_around_near h 0 (ml + mr) (length (L ++ [] ++ Rr)) (zip_with cmul [] []) _ _ (n0, n0) _ Hh0 ltac:(clear; lia) Hfew' Hlen Hels) with (3 := eq_refl) (4 := Hperm);
      (apply (near_le val usual u Hu 0); [clear; lia|by apply near_zero]).
  - destruct (complex_to_array (z :: OC0)) as [|y l0] eqn:El; [by destruct z|]. rewrite <- El, <- EC in *. clear El y l0.
    assert (Hne : nc <> 0) by (subst OC; simpl in HOC; lia).
    destruct (dot_worker_regs (fun b => pairs_of b) (fun a b => zip_with cmul (pairs_of a) (pairs_of b)) reg_sum_complex (reg_cbin cmul) plain_total r (addr + from * elem_size r)
      (complex_to_array C) (complex_to_array OC)) as (prods & -> & Hpk & Hpl & Hps).
    { done. } { by rewrite complex_to_array_length, HC, <- Hmc. } { auto. } { rewrite !complex_to_array_length. congruence. } { done. }
    { intros a b a' b' Hla Hlb. rewrite !pairs_of_app_even by (rewrite ?Hla, ?Hlb, Hh; apply even_double). apply zip_with_app. rewrite !pairs_of_length. congruence. }
    { intros a b Hla Hlb. unfold reg_cbin.
      rewrite complex_to_array_length, zip_with_length, !pairs_of_length, pairs_of_complex_to_array, Hla, Hlb. split; [|done]. rewrite Hh, Proof_SimdOps.div2_double. clear. lia. }
    rewrite !bind_Done, Hedge, !bind_Done, Hoedge, bind_Done, (zip_fold cadd cmul). cbn [foldl].
    eexists. split; [reflexivity|]. rewrite !pairs_of_complex_to_array in Hps. rewrite Hh in Hpl, Hpk.
    destruct (cplx_center_near r h prods (zip_with cmul C OC) Hh Hpl Hps) as [N1 N2].
    { intros x Hin. apply Hx. rewrite !elem_of_app. auto. }
    rewrite complex_to_array_length in Hpk.
    apply (cplx_around_near h (length prods) (ml + mr) (length (L ++ C ++ Rr)) (zip_with cmul C OC) _ _ _ _ Hh0 ltac:(rewrite !app_length; clear -Hpk; lia) Hfew' Hlen Hels N1 N2 eq_refl Hperm).
Qed.
End sums.
