(** Rounding errors of the convolution of complex vectors with registers *)
From Verif Require Import Spec_Round Proof_Prec Proof_PrecOps Proof_PrecDot Proof_PrecDot2 Proof_Round Proof_ConvSimd Proof_ConvSimdOps Proof_RoundSimd Props_RoundConv.
From stdpp Require Import list_numbers tactics.
From Coq Require Import Lia.
Local Open Scope nat_scope.

Section machine.
Context {A : Type} `{Num A} (val : A -> R) (usual : A -> Prop) (u : R) (HR : rounds val usual u) (Hu : (0 <= u)%R).
Notation near := (near val usual u).

Lemma some_lanes_near w (prods : list (list A)) (js : list nat) (items : list A) :
  (forall b, b ∈ prods -> length b = w) -> concat (map (fun b => map (fun j => nth j b n0) js) prods) = items -> (forall x, x ∈ items -> usual x) ->
  near (length prods + (length js - 1)) (map val items) (reg_sum n0 nadd (map (fun j => foldl nadd n0 (lane j prods)) js)).
Proof.
  intros Hl Hit Hx.
  assert (HF : Forall2 (fun y m => near (length prods) m y) (map (fun j => foldl nadd n0 (lane j prods)) js) (map (fun j => map val (lane j prods)) js)).
  { assert (Hjs : forall j, j ∈ js -> forall x, x ∈ lane j prods -> usual x).
    { intros j Hjj x (b & -> & Hb)%elem_of_list_fmap. apply Hx. rewrite <- Hit. apply elem_of_list_In, in_concat.
      exists (map (fun j => nth j b n0) js). split; apply in_map_iff; [exists b|exists j]; (split; [done|]); by apply elem_of_list_In. }
    clear -Hjs HR Hu. induction js as [|j js IH]; cbn [map]; constructor.
    - pose proof (near_plain val usual u HR Hu (lane j prods) (Hjs j ltac:(left))) as N. unfold lane at 1 in N. by rewrite map_length in N.
    - apply IH. intros j' Hj'. apply Hjs. by right. }
  pose proof (near_lanes val usual u HR Hu _ _ _ HF) as N. rewrite map_length in N.
  apply (near_perm val usual u _ (concat (map (fun j => map val (lane j prods)) js))); [|exact N].
  rewrite <- (map_map (fun j => lane j prods) (map val)), <- concat_map_map, <- Hit. apply Permutation_map, picked_perm.
Qed.

(** Both parts of a complex number *)
Definition cnear (k : nat) (l : list (A * A)) (q : A * A) : Prop := near k (map val (map fst l)) (fst q) /\ near k (map val (map snd l)) (snd q).
Lemma cnear_le k k' l q : k <= k' -> cnear k l q -> cnear k' l q.
Proof. intros Hk [N1 N2]. split; by apply (near_le val usual u Hu k). Qed.
Lemma cnear_perm k l l' q : l ≡ₚ l' -> cnear k l q -> cnear k l' q.
Proof. intros Hp [N1 N2]. split; (eapply (near_perm val usual u); [|eassumption]); by rewrite Hp. Qed.
Lemma cnear_plain l : (forall p, p ∈ l -> usual (fst p) /\ usual (snd p)) -> cnear (length l) l (foldl cadd (n0, n0) l).
Proof.
  intros Hl. rewrite csum_parts. assert (L1 : length (map fst l) = length l) by apply map_length. assert (L2 : length (map snd l) = length l) by apply map_length.
  split; [rewrite <- L1|rewrite <- L2]; apply (near_plain val usual u HR Hu); intros x (y & -> & Hy)%elem_of_list_fmap; by apply Hl.
Qed.
Lemma cnear_zeros k zs l q : (forall z, z ∈ zs -> val (fst z) = 0%R /\ val (snd z) = 0%R) -> cnear k (zs ++ l) q -> cnear k l q.
Proof.
  intros Hz [N1 N2]. rewrite !map_app in N1, N2. split.
  - refine (near_zeros val usual u k _ _ _ _ N1). intros z (y & -> & (p & -> & Hp)%elem_of_list_fmap)%elem_of_list_fmap. by apply Hz.
  - refine (near_zeros val usual u k _ _ _ _ N2). intros z (y & -> & (p & -> & Hp)%elem_of_list_fmap)%elem_of_list_fmap. by apply Hz.
Qed.
Lemma lanes_cnear r h prods (cps : list (A * A)) : reg_len r = 2 * h -> (forall b, b ∈ prods -> length b = 2 * h) -> concat (map pairs_of prods) = cps ->
  (forall x, x ∈ cps -> usual (fst x) /\ usual (snd x)) -> cnear (length prods + (h - 1)) cps (reg_sum_complex (plain_total r prods)).
Proof.
  intros Hh Hpl Hps Hx. unfold reg_sum_complex. rewrite (plain_lanes r prods) by (intros b Hb; rewrite Hh; auto).
  rewrite Hh, pairs_of_lanes0, reg_sum_pairs, (map_map _ fst), (map_map _ snd). unfold cnear. cbn [fst snd].
  assert (G : forall (f : nat -> nat) (p : A * A -> A), (forall j, f j = 2 * j + f 0) -> f 0 <= 1 -> (forall a b : A, p (a, b) = nth (f 0) [a; b] n0) ->
    (forall x, x ∈ cps -> usual (p x)) ->
    near (length prods + (h - 1)) (map val (map p cps)) (reg_sum n0 nadd (map (fun j => foldl nadd n0 (lane (f j) prods)) (seq 0 h)))).
  { intros f p Hfj Hf1 Hp Up. pose proof (some_lanes_near (2 * h) prods (map f (seq 0 h)) (map p cps) Hpl) as N.
    rewrite map_length, seq_length, (map_map f (fun j => foldl nadd n0 (lane j prods))) in N. apply N.
    - by apply pick_halves.
    - intros x (y & -> & Hy)%elem_of_list_fmap. by apply Up. }
  split.
  - apply (G (fun j => 2 * j) fst); [intros; lia|lia|done|]. intros x Hin. exact (proj1 (Hx x Hin)).
  - apply (G (fun j => 2 * j + 1) snd); [intros; lia|lia|done|]. intros x Hin. exact (proj2 (Hx x Hin)).
Qed.

Lemma cproduct_registers regs hs w : (forall b, b ∈ regs -> length b = 2 * w) -> (forall b, b ∈ hs -> length b = 2 * w) -> length regs = length hs ->
  (forall b, b ∈ zip_with (reg_cbin cmul) regs hs -> length b = 2 * w) /\
  concat (map pairs_of (zip_with (reg_cbin cmul) regs hs)) = zip_with cmul (pairs_of (concat regs)) (pairs_of (concat hs)) /\
  length (zip_with (reg_cbin cmul) regs hs) = length hs /\
  forall acc, foldl (fun sum '(this, other) => reg_bin nadd sum (reg_cbin cmul this other)) acc (zip regs hs) = foldl (reg_bin nadd) acc (zip_with (reg_cbin cmul) regs hs).
Proof.
  revert hs. induction regs as [|a regs IH]; intros [|b hs] Ha Hb Hl; try done.
  - assert (La : length a = 2 * w) by (apply Ha; left). assert (Lb : length b = 2 * w) by (apply Hb; left).
    destruct (IH hs) as (I1 & I2 & I3 & I4); [intros c Hc; apply Ha; by right|intros c Hc; apply Hb; by right|by injection Hl|].
    cbn [zip_with concat map]. split_and!.
    + intros c [->|Hc]%elem_of_cons; [|by apply I1]. unfold reg_cbin. rewrite complex_to_array_length, zip_with_length, !pairs_of_length, La, Lb, Proof_SimdOps.div2_double. lia.
    + rewrite I2, !pairs_of_app_even by (rewrite ?La, ?Lb; apply even_double). rewrite zip_with_app by (rewrite !pairs_of_length; congruence).
      unfold reg_cbin at 1. by rewrite pairs_of_complex_to_array.
    + cbn [length]. by rewrite I3.
    + intros acc. cbn [foldl]. apply I4.
Qed.
End machine.

(** [shifted_products] for points *)
Lemma shifted_split {P} (zero : P) (mul : P -> P -> P) (X : nat -> P) (h : list P) sh n : length h + sh <= n ->
  exists B E, map (fun j => mul (X j) (shifted_at zero sh h j)) (seq 0 n) = B ++ map (fun k => mul (X (k + sh)) (default zero (h !! k))) (seq 0 (length h)) ++ E /\
    forall p, p ∈ B ++ E -> exists j, j < n /\ p = mul (X j) zero.
Proof.
  intros Hn. exists (map (fun j => mul (X j) zero) (seq 0 sh)), (map (fun j => mul (X j) zero) (seq (sh + length h) (n - sh - length h))). split.
  - set (n' := n - sh - length h). replace n with (sh + (length h + n')) by (subst n'; lia). clearbody n'. rewrite !seq_app, !map_app. f_equal; [|f_equal].
    + apply map_ext_in. intros j Hj%in_seq. f_equal. unfold shifted_at. replace (j <? sh) with true by (symmetry; apply Nat.ltb_lt; lia). done.
    + replace (0 + sh) with sh by lia. transitivity (map (fun j => mul (X j) (shifted_at zero sh h j)) (map (Nat.add sh) (seq 0 (length h)))).
      * f_equal. pose proof (fmap_add_seq sh 0 (length h)) as Es. rewrite Nat.add_0_r in Es. by rewrite <- Es.
      * rewrite map_map. apply map_ext_in. intros k Hk%in_seq. rewrite (Nat.add_comm k). f_equal. unfold shifted_at.
        destruct ((sh + k <? sh) || (length h + sh <=? sh + k)) eqn:Eq.
        -- apply orb_true_iff in Eq as [Eq|Eq]; [apply Nat.ltb_lt in Eq | apply Nat.leb_le in Eq]; lia.
        -- do 2 f_equal. lia.
    + apply map_ext_in. intros j Hj%in_seq. f_equal. unfold shifted_at. replace (length h + sh <=? j) with true by (symmetry; apply Nat.leb_le; lia). by rewrite orb_true_r.
  - intros p [(j & -> & Hj)%elem_of_list_fmap|(j & -> & Hj)%elem_of_list_fmap]%elem_of_app; apply elem_of_seq in Hj; exists j; (split; [lia|done]).
Qed.
Lemma complex_to_array_take {A} n (c : list (A * A)) : complex_to_array (take n c) = take (2 * n) (complex_to_array c).
Proof. revert n. induction c as [|[a b] c IH]; intros [|n]; try done. replace (2 * S n) with (S (S (2 * n))) by lia. cbn [take complex_to_array]. by rewrite IH. Qed.
Lemma complex_to_array_drop {A} n (c : list (A * A)) : complex_to_array (drop n c) = drop (2 * n) (complex_to_array c).
Proof. revert n. induction c as [|[a b] c IH]; intros [|n]; try done. replace (2 * S n) with (S (S (2 * n))) by lia. cbn [drop complex_to_array]. by rewrite IH. Qed.

Section point.
Context {A : Type} `{Num A} (val : A -> R) (usual : A -> Prop) (u : R) (HR : rounds val usual u) (Hu : (0 <= u)%R).

(** A product with zero *)
Definition void (p : A * A) : Prop := (usual (fst p) /\ usual (snd p)) /\ val (fst p) = 0%R /\ val (snd p) = 0%R.
Lemma simd_point_cnear r w (h x : list (A * A)) (C : list (A * A)) fuel shifts L k conv i : reg_len r = 2 * w -> 0 < w ->
  good_shifts (n0, n0) w r pairs_of h shifts -> length (complex_to_array C) <= fuel -> length C = k * w -> C = take (k * w) (drop L x) -> L + k * w <= length x ->
  length h + L <= i + conv -> i + conv <= L + k * w -> (forall y, y ∈ x -> void (cmul y (n0, n0))) ->
  let taps := map (fun k => cmul (around (n0, n0) x (Z.of_nat i + Z.of_nat conv - 1 - Z.of_nat k)) (default (n0, n0) (h !! k))) (seq 0 (length h)) in
  (forall p, p ∈ taps -> usual (fst p) /\ usual (snd p)) ->
  exists q, simd_point (reg_cbin cmul) reg_sum_complex r shifts (chunks_fuel fuel (reg_len r) (complex_to_array C)) L conv i = Done q /\ cnear val usual u (length h + 2 * w) taps q.
Proof.
  intros Hrw Hw [Hsl Hs] Hf HC Hpts HLx Hlo Hhi Hx taps Ht.
  unfold simd_point. rewrite usub_Done by lia. rewrite bind_Done, Hsl. set (e0 := i + conv - L) in *.
  assert (He0 : e0 = i + conv - L) by done. clearbody e0.
  assert (Hum : umod e0 w = Done (e0 mod w)) by (destruct w; [lia|done]). rewrite Hum, bind_Done, usub_Done by lia. rewrite bind_Done.
  assert (Hd : udiv (e0 + w - 1) w = Done ((e0 + w - 1) / w)) by (destruct w; [lia|done]). rewrite Hd, bind_Done.
  destruct (Hs (e0 mod w)) as (copy & Hcopy & Hfc & Hlen & Hlanes); [apply Nat.mod_upper_bound; lia|].
  rewrite (proj2 (rd_Done _ _ _) Hcopy), bind_Done. pose proof (round_up w e0 Hw) as Hr. set (e := (e0 + w - 1) / w) in *. clearbody e. clear Hd Hum.
  set (sh := (w - e0 mod w) mod w) in *. assert (Hsh : sh < w) by (apply Nat.mod_upper_bound; lia). clearbody sh.
  set (N := length copy) in *. assert (HN : N <= e) by nia. assert (Hek : e <= k) by nia.
  rewrite usub_Done by lia. rewrite bind_Done.
  destruct (center_regs_real (reg_len r) (complex_to_array C) fuel (e - N) e) as (regs & -> & Hreg & Hrl & Hrc);
    [lia | done | rewrite complex_to_array_length, HC, Hrw; replace (2 * (k * w)) with (k * (2 * w)) by lia; apply Nat.mod_mul; lia | lia | rewrite complex_to_array_length, HC, Hrw; nia |].
  rewrite bind_Done. eexists. split; [reflexivity|].
  destruct (cproduct_registers regs copy w) as (P1 & P2 & P3 & P4); [rewrite <- Hrw; exact Hreg|rewrite <- Hrw; by apply list.Forall_forall|fold N; lia|]. rewrite P4.
  change (foldl (reg_bin nadd) (splat r n0) ?l) with (plain_total r l).
  set (X := fun j => default (n0, n0) (x !! (L + e * w - 1 - j))).
  assert (HNe : N * w <= e * w) by (apply Nat.mul_le_mono_r; lia). assert (Hekn : e * w <= k * w) by (apply Nat.mul_le_mono_r; lia).
  assert (HeN : (e - N) * w = e * w - N * w) by (rewrite Nat.mul_sub_distr_r; done).
  assert (Hcr : pairs_of (concat regs) = take (N * w) (drop ((e - N) * w) C)).
  { rewrite Hrc, Hrw. replace (e - (e - N)) with N by lia. replace (N * (2 * w)) with (2 * (N * w)) by lia. replace ((e - N) * (2 * w)) with (2 * ((e - N) * w)) by lia.
    rewrite <- complex_to_array_drop, <- complex_to_array_take. apply pairs_of_complex_to_array. }
  assert (Hitems : concat (map pairs_of (zip_with (reg_cbin cmul) regs copy)) = rev (map (fun j => cmul (X j) (shifted_at (n0, n0) sh h j)) (seq 0 (N * w)))).
  { rewrite P2, Hcr, Hlanes. fold N. rewrite Hpts.
    apply list_eq. intros q. destruct (decide (q < N * w)) as [Hq|Hq].
    - rewrite rev_lookup by (by rewrite map_length, seq_length). rewrite map_length, seq_length.
      change (map ?g (seq 0 (N * w))) with (g <$> seq 0 (N * w)). rewrite list_lookup_fmap, lookup_seq_lt by lia.
      rewrite lookup_zip_with, lookup_take by lia. rewrite lookup_drop, lookup_take by lia. rewrite lookup_drop.
      change (map ?g ?l) with (g <$> l). rewrite list_lookup_fmap, rev_lookup by (by rewrite seq_length). rewrite seq_length, lookup_seq_lt by lia.
      destruct (lookup_lt_is_Some_2 x (L + ((e - N) * w + q))) as [y Hy]; [lia|]. rewrite Hy. rewrite (Nat.add_0_l (N * w - 1 - q)). cbn [mbind option_bind fmap option_fmap option_map]. unfold X.
      replace (L + e * w - 1 - (N * w - 1 - q)) with (L + ((e - N) * w + q)) by lia. by rewrite Hy.
    - rewrite !lookup_ge_None_2; [done | rewrite rev_length, map_length, seq_length; lia |].
      rewrite zip_with_length, map_length, rev_length, seq_length. lia. }
  assert (Et : map (fun k => cmul (X (k + sh)) (default (n0, n0) (h !! k))) (seq 0 (length h)) = taps).
  { apply map_ext_in. intros j Hj%in_seq. f_equal. unfold X, around. f_equal. f_equal. rewrite circular_small by lia. lia. }
  destruct (shifted_split (n0, n0) cmul X h sh (N * w)) as (B & E & Eall & HBE); [lia|]. rewrite Et in Eall.
  assert (Hvoid : forall p, p ∈ B ++ E -> void p).
  { intros p Hp. destruct (HBE p Hp) as (j & Hj & ->). apply Hx. unfold X.
    destruct (lookup_lt_is_Some_2 x (L + e * w - 1 - j)) as [y Hy]; [lia|]. rewrite Hy. by apply elem_of_list_lookup_2 in Hy. }
  set (all := map (fun j => cmul (X j) (shifted_at (n0, n0) sh h j)) (seq 0 (N * w))) in *.
  assert (Hperm : rev all ≡ₚ (B ++ E) ++ taps).
  { rewrite <- Permutation_rev, Eall, <- app_assoc. apply Permutation_app_head, Permutation_app_comm. }
  apply (cnear_zeros val usual u _ (B ++ E)). { intros z Hz. by destruct (Hvoid z Hz). }
  apply (cnear_perm val usual u _ _ _ _ Hperm).
  pose proof (lanes_cnear val usual u HR Hu r w _ _ Hrw P1 Hitems) as G. rewrite P3 in G. fold N in G.
  apply (cnear_le val usual u Hu (N + (w - 1))). { assert (N <= length h + w + 1) by nia. lia. }
  apply G. intros p Hp. rewrite Hperm, elem_of_app in Hp. destruct Hp as [Hp|Hp]; [by apply Hvoid|by apply Ht].
Qed.
End point.

Section signal.
Context {A : Type} `{Num A} (val : A -> R) (usual : A -> Prop) (u : R) (HR : rounds val usual u) (Hu : (0 <= u)%R).

Theorem convolve_simd_cnear r addr s sched b (v o : dvec A) (x h : list (A * A)) : reg_ok r -> elem_aligned r addr -> half_aligned r addr -> point_aligned r addr ->
  cplx v x -> cplx o h -> lends b v (2 * length x) -> length h < length x -> 2 * ((length h + 1) / 2 + reg_len r) < length x ->
  (forall y, y ∈ x -> void val usual (cmul y (n0, n0))) -> (forall i p, i < length x -> p ∈ products (n0, n0) cmul x h i -> usual (fst p) /\ usual (snd p)) ->
  exists v' b' y, convolve_signal_simd r addr s sched b v o = Done (v', b') /\ cplx v' y /\ same_meta v v' /\ length y = length x /\
    forall i, i < length x -> exists q, y !! i = Some q /\ cnear val usual u (length h + reg_len r) (products (n0, n0) cmul x h i) q.
Proof.
  intros Hr Ha Hh Hp Hv Ho Hb Hlt Hsize Hx0 Hx. assert (Hww : 0 < reg_len r) by (by destruct Hr as (_ & ? & _)).
  assert (Hev : Nat.even (reg_len r) = true) by (by destruct Hr as (_ & _ & ?)).
  destruct (shifts_complex r o h Hww Hev Ho) as (shifts & Hsh & Hgood). apply Nat.even_spec in Hev as [w Hw]. rewrite Hw, Proof_SimdOps.div2_double in Hgood.
  assert (Hw0 : 0 < w) by lia. rewrite Hw in Hsize.
  pose proof (points_cplx v x Hv) as Hpv. pose proof (points_cplx o h Ho) as Hpo.
  assert (Hlen := reals_len v _ (proj2 Hv)). rewrite complex_to_array_length in Hlen.
  destruct (align_long r addr (len v)) as (left & right & k & Hpart & Hl1 & Hr1 & Hn & Hcr & Hal & Hle); try done.
  { rewrite Hlen, Hw. lia. }
  specialize (Hle Hp). rewrite Hw in Hl1, Hr1, Hn. assert (HL : left = 2 * (left / 2)) by (apply Nat.div_exact; [lia|done]). set (L := left / 2) in *. clearbody L.
  assert (HRr : exists R, right = 2 * R) by (exists (length x - L - k * w); nia). destruct HRr as [R HRr].
  assert (Hxn : length x = L + k * w + R) by nia.
  set (m := length h) in *. set (conv := m - m / 2).
  assert (Hconv : conv = (m + 1) / 2). { subst conv. pose proof (Nat.div_mod (m + 1) 2). pose proof (Nat.mod_upper_bound (m + 1) 2). pose proof (Nat.div_mod m 2). pose proof (Nat.mod_upper_bound m 2). lia. }
  assert (Hmc : m <= 2 * conv) by (subst conv; pose proof (Nat.div_mod m 2); pose proof (Nat.mod_upper_bound m 2); lia).
  rewrite <- Hconv in Hsize. unfold products in Hx |- *. fold m in Hx |- *. rewrite <- Hconv in Hx |- *.
  set (taps := fun i => map (fun k => cmul (around (n0, n0) x (Z.of_nat i + Z.of_nat conv - 1 - Z.of_nat k)) (default (n0, n0) (h !! k))) (seq 0 m)) in *.
  set (C := take (k * w) (drop L x)). assert (HCl : length C = k * w) by (subst C; rewrite take_length, drop_length; lia).
  set (Ca := complex_to_array C). assert (HCa : length Ca = k * reg_len r) by (subst Ca; rewrite complex_to_array_length, HCl, Hw; lia).
  set (q := conv + reg_len r) in *.
  set (pt := fun i => simd_point (reg_cbin cmul) reg_sum_complex r shifts (chunks_fuel (length Ca) (reg_len r) Ca) L conv i).
  set (vl := fun i => if (q <=? i) && (i <? length x - q) then match pt i with Done y => y | _ => (n0, n0) end else series (n0, n0) cadd m (fun k => cmul (around (n0, n0) x (Z.of_nat i + Z.of_nat conv - 1 - Z.of_nat k)) (default (n0, n0) (h !! k)))).
  assert (Hpoint : forall i, q <= i -> i < length x - q -> exists y, pt i = Done y /\ cnear val usual u (m + 2 * w) (taps i) y).
  { intros i E1 E2. unfold pt, Ca.
    apply (simd_point_cnear val usual u HR Hu r w h x C (length (complex_to_array C)) shifts L k conv i Hw Hw0 Hgood); try done; fold m; try lia.
    intros p Hp'. apply (Hx i); [lia|done]. }
  assert (Hnear : forall i, i < length x -> cnear val usual u (m + reg_len r) (taps i) (vl i)).
  { intros i Hi. unfold vl. destruct ((q <=? i) && (i <? length x - q)) eqn:E.
    - apply andb_prop in E as [E1%Nat.leb_le E2%Nat.ltb_lt]. destruct (Hpoint i E1 E2) as (y & -> & Hy). by rewrite Hw.
    - unfold series. apply (cnear_le val usual u Hu m); [lia|]. pose proof (cnear_plain val usual u HR Hu (taps i)) as G. unfold taps in G at 2. rewrite map_length, seq_length in G.
      apply G. intros p Hp'. by apply (Hx i). }
  assert (Hpt : forall i, q <= i -> i < length x - q -> pt i = Done (vl i)).
  { intros i E1 E2. unfold vl. replace (q <=? i) with true by (symmetry; by apply Nat.leb_le). replace (i <? length x - q) with true by (symmetry; by apply Nat.ltb_lt). cbn [andb].
    destruct (Hpoint i E1 E2) as (y & -> & Hy). done. }
  assert (Hout : forall i, i < q \/ length x - q <= i -> convolve_iteration (n0, n0) cadd cmul x h i conv m = Done (vl i)).
  { intros i Hi. rewrite convolve_iteration_spec by (done || (intros ->; simpl in *; lia)). unfold vl.
    replace ((q <=? i) && (i <? length x - q)) with false; [done|]. symmetry. apply andb_false_iff. destruct Hi; [left; by apply Nat.leb_gt | right; by apply Nat.ltb_ge]. }
  assert (exists v' b', convolve_signal_simd r addr s sched b v o = Done (v', b') /\ cplx v' (map vl (seq 0 (length x))) /\ same_meta v v') as (v' & b' & E & Hv' & Hm').
  2:{ exists v', b', (map vl (seq 0 (length x))). split; [exact E|]. split; [exact Hv'|]. split; [exact Hm'|]. split; [by rewrite map_length, seq_length|].
      intros i Hi. exists (vl i). split; [by rewrite list_lookup_fmap, lookup_seq_lt|by apply Hnear]. }
  unfold convolve_signal_simd. rewrite (proj1 Hv). unfold convolve_signal_simd_impl. rewrite Hpv, Hpo. cbv zeta. fold m.
  replace (m <? length x) with true by (symmetry; by apply Nat.ltb_lt). cbn [assert_]. rewrite bind_Done.
  apply (into_buffer_cplx b v x); [done|done|by rewrite map_length, seq_length|].
  intros dest Hd. rewrite (proj2 Ho), bind_Done, (vdata_again o _ (proj2 Ho)), bind_Done. unfold as_complex at 1. rewrite array_to_complex_Done, bind_Done.
  rewrite (slice_Done h) by (fold m; lia). rewrite drop_0, Nat.sub_0_r. replace (take m h) with h by (symmetry; apply firstn_all). rewrite bind_Done, Hsh, bind_Done.
  rewrite Hpart, bind_Done, Hcr, bind_Done. cbn [p_left]. rewrite (proj1 Hv).
  fold conv. replace (left / 2) with L by (rewrite HL, Proof_SimdOps.div2_double; done).
  destruct (vdata_split v _ (proj2 Hv)) as (rest & He & Hnv).
  assert (Hsl : slice (elems v) left (len v - right) = Done Ca).
  { rewrite He. rewrite slice_Done by (rewrite ?app_length, ?complex_to_array_length; lia). f_equal. replace (len v - right - left) with (2 * (k * w)) by lia.
    rewrite drop_app_le by (rewrite complex_to_array_length; lia). rewrite take_app_le by (rewrite drop_length, complex_to_array_length; lia).
    subst Ca C. rewrite complex_to_array_take, complex_to_array_drop. by rewrite <- HL. }
  rewrite Hsl, bind_Done. unfold regs_of at 1. assert (Hchk : regs_check r (addr + left * elem_size r) (length Ca) = true).
  { unfold regs_check. apply orb_true_iff. right. rewrite Hal. cbn [Nat.eqb andb]. apply Nat.eqb_eq. rewrite HCa. apply Nat.mod_mul. lia. }
  rewrite Hchk. cbn [assert_]. rewrite !bind_Done. fold q.
  rewrite usub_Done by lia. rewrite bind_Done.
  assert (Hcut : q + (length x - q - q) + q = length dest) by lia.
  destruct (cut3 dest q (length x - q - q) q Hcut) as (dL & dC & dR & -> & H1 & H2 & H3).
  assert (Hs1 : slice (dL ++ dC ++ dR) q (length x - q) = Done dC).
  { rewrite slice_Done by (rewrite ?app_length; lia). f_equal. rewrite drop_app_alt by done. replace (length x - q - q) with (length dC) by lia. apply take_app. }
  rewrite Hs1, bind_Done.
  rewrite (execute_fill s sched (fun t => simd_point (reg_cbin cmul) reg_sum_complex r shifts (chunks_fuel (length Ca) (reg_len r) Ca) L conv (q + t)) (fun t => vl (q + t))).
  2:{ intros i Hi. apply Hpt; lia. }
  2:{ left. intros ->. simpl in H2. lia. }
  rewrite bind_Done. rewrite (splice_Done (dL ++ dC ++ dR)) by (rewrite map_length, seq_length, !app_length; lia). rewrite bind_Done.
  rewrite map_length, seq_length. assert (Et : take q (dL ++ dC ++ dR) = dL) by (by rewrite take_app_alt).
  assert (Ed : drop (q + length dC) (dL ++ dC ++ dR) = dR).
  { rewrite app_assoc. apply drop_app_alt. rewrite app_length. lia. }
  rewrite Et, Ed. set (mid := map (fun t => vl (q + t)) (seq 0 (length dC))).
  assert (Hml : length mid = length dC) by (subst mid; by rewrite map_length, seq_length).
  replace (length (dL ++ mid ++ dR)) with (length dL + length mid + length dR) by (rewrite !app_length; lia).
  replace (edge_update (length dL + length mid + length dR) q q) with (edge_update (A:=A * A) (length dL + length mid + length dR) (length dL) (length dR)) by (by rewrite H1, H3).
  rewrite (edge_update_spec _ (fun i _ => vl i)).
  2:{ intros i y Hi%lookup_lt_Some. apply Hout. lia. }
  2:{ intros i y Hi. apply Hout. lia. }
  f_equal. rewrite !imap_const_seq.
  transitivity (map vl (seq 0 (length dL)) ++ map vl (seq q (length dC)) ++ map vl (seq (q + length dC) (length dR))).
  - f_equal. f_equal.
    + subst mid. pose proof (fmap_add_seq q 0 (length dC)) as E. rewrite Nat.add_0_r in E. rewrite <- E. by rewrite <- list_fmap_compose.
    + rewrite H1, Hml. pose proof (fmap_add_seq (q + length dC) 0 (length dR)) as E. rewrite Nat.add_0_r in E. rewrite <- E. by rewrite <- list_fmap_compose.
  - rewrite <- !map_app. f_equal. rewrite <- seq_app, H1, H3. rewrite <- seq_app. f_equal. lia.
Qed.
End signal.
