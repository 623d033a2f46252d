(** Rounding errors of the convolution of real vectors with registers *)
From Verif Require Import Spec_Round Proof_Prec Proof_PrecOps Proof_PrecDot Proof_PrecDot2 Proof_Round Proof_ConvSimd Proof_ConvSimdOps.
From stdpp Require Import list_numbers tactics.
From Coq Require Import Lia.
Local Open Scope nat_scope.

Section machine.
Context {A : Type} `{Num A} (val : A -> R) (usual : A -> Prop) (u : R) (HR : rounds val usual u) (Hu : (0 <= u)%R).
Notation near := (near val usual u).

(** [picked_near] without the leading zero *)
Lemma lanes_near w (prods : list (list A)) (items : list A) :
  (forall b, b ∈ prods -> length b = w) -> concat prods = items -> (forall x, x ∈ items -> usual x) ->
  near (length prods + (w - 1)) (map val items) (reg_sum n0 nadd (map (fun j => foldl nadd n0 (lane j prods)) (seq 0 w))).
Proof.
  intros Hl Hitems Hx.
  assert (Hit : concat (map (fun b => map (fun j => nth j b n0) (seq 0 w)) prods) = items).
  { rewrite <- Hitems. f_equal. rewrite <- (map_id prods) at 2. apply map_ext_in. intros b Hb. rewrite <- (Hl b) by (by apply elem_of_list_In). apply map_nth_seq. }
  assert (HF : Forall2 (fun y m => near (length prods) m y) (map (fun j => foldl nadd n0 (lane j prods)) (seq 0 w)) (map (fun j => map val (lane j prods)) (seq 0 w))).
  { assert (Hjs : forall j, j ∈ seq 0 w -> forall x, x ∈ lane j prods -> usual x).
    { intros j Hjj x (b & -> & Hb)%elem_of_list_fmap. apply Hx. rewrite <- Hit. apply elem_of_list_In, in_concat.
      exists (map (fun j => nth j b n0) (seq 0 w)). split; apply in_map_iff; [exists b|exists j]; (split; [done|]); by apply elem_of_list_In. }
    clear -Hjs HR Hu. induction (seq 0 w) as [|j js IH]; cbn [map]; constructor.
    - pose proof (near_plain val usual u HR Hu (lane j prods) (Hjs j ltac:(left))) as N. unfold lane at 1 in N. by rewrite map_length in N.
    - apply IH. intros j' Hj'. apply Hjs. by right. }
  pose proof (near_lanes val usual u HR Hu _ _ _ HF) as N. rewrite map_length, seq_length in N.
  apply (near_perm val usual u _ (concat (map (fun j => map val (lane j prods)) (seq 0 w)))); [|exact N].
  rewrite <- (map_map (fun j => lane j prods) (map val)), <- concat_map_map, <- Hit. apply Permutation_map, picked_perm.
Qed.

(** Zeros don't count *)
Lemma near_zeros k l zs x : (forall z, z ∈ zs -> z = 0%R) -> near k (zs ++ l) x -> near k l x.
Proof.
  intros Hz. induction zs as [|z zs IH]; [done|]. intros [U E]. apply IH; [intros z' Hz'; apply Hz; by right|]. split; [exact U|].
  rewrite (Hz z ltac:(left)) in E. cbn [app] in E. unfold Rsum in E |- *. cbn [map foldr] in E. rewrite Rabs_R0, !Rplus_0_l in E. exact E.
Qed.

Lemma product_registers regs hs w : (forall b, b ∈ regs -> length b = w) -> (forall b, b ∈ hs -> length b = w) -> length regs = length hs ->
  (forall b, b ∈ zip_with (reg_bin nmul) regs hs -> length b = w) /\ concat (zip_with (reg_bin nmul) regs hs) = zip_with nmul (concat regs) (concat hs) /\
  length (zip_with (reg_bin nmul) regs hs) = length hs /\
  forall acc, foldl (fun sum '(this, other) => reg_bin nadd sum (reg_bin nmul this other)) acc (zip regs hs) = foldl (reg_bin nadd) acc (zip_with (reg_bin nmul) regs hs).
Proof.
  revert hs. induction regs as [|a regs IH]; intros [|b hs] Ha Hb Hl; try done.
  - assert (La : length a = w) by (apply Ha; left). assert (Lb : length b = w) by (apply Hb; left).
    destruct (IH hs) as (I1 & I2 & I3 & I4); [intros c Hc; apply Ha; by right|intros c Hc; apply Hb; by right|by injection Hl|].
    cbn [zip_with concat]. split_and!.
    + intros c [->|Hc]%elem_of_cons; [unfold reg_bin; rewrite zip_with_length; lia|by apply I1].
    + rewrite I2, zip_with_app by congruence. done.
    + cbn [length]. by rewrite I3.
    + intros acc. cbn [foldl]. apply I4.
Qed.

Lemma center_regs_real w (C : list A) fuel from to : 0 < w -> length C <= fuel -> length C mod w = 0 -> from <= to -> to * w <= length C ->
  exists regs, slice (chunks_fuel fuel w C) from to = Done regs /\ (forall b, b ∈ regs -> length b = w) /\ length regs = to - from /\
    concat regs = take ((to - from) * w) (drop (from * w) C).
Proof.
  intros Hw Hf Hm Hft Hto.
  assert (Hn : to <= length (chunks_fuel fuel w C)).
  { destruct (decide (to = 0)); [lia|]. assert (Hs : is_Some (chunks_fuel fuel w C !! (to - 1))).
    { rewrite chunks_fuel_lookup by done. replace ((to - 1) * w <? length C) with true by (symmetry; apply Nat.ltb_lt; nia). done. }
    apply lookup_lt_is_Some_1 in Hs. lia. }
  assert (Hb : Forall (fun b => length b = w) (chunks_fuel fuel w C)).
  { apply list.Forall_forall. intros b Hb. by apply (chunks_fuel_blocks fuel w C). }
  rewrite slice_Done by done. eexists. split; [done|]. split_and!.
  - apply list.Forall_forall. by apply Forall_take, Forall_drop.
  - rewrite take_length, drop_length. lia.
  - rewrite (concat_take_blocks w), (concat_drop_blocks w) by (done || by apply Forall_drop). by rewrite chunks_fuel_concat.
Qed.

(** Around the taps of a shifted copy there are only products with zero *)
Lemma shifted_products (X : nat -> A) (h : list A) sh n : length h + sh <= n -> (forall j, j < n -> usual (nmul (X j) n0) /\ val (nmul (X j) n0) = 0%R) ->
  let taps := map (fun k => nmul (X (k + sh)) (default n0 (h !! k))) (seq 0 (length h)) in let all := map (fun j => nmul (X j) (shifted_at n0 sh h j)) (seq 0 n) in
  (forall p, p ∈ taps -> usual p) -> (forall p, p ∈ all -> usual p) /\ exists zs, (forall z, z ∈ zs -> z = 0%R) /\ map val all ≡ₚ zs ++ map val taps.
Proof.
  intros Hn HX taps all Ht.
  set (B := map (fun j => nmul (X j) n0) (seq 0 sh)). set (E := map (fun j => nmul (X j) n0) (seq (sh + length h) (n - sh - length h))).
  assert (Eall : all = B ++ taps ++ E).
  { unfold all. replace n with (sh + (length h + (n - sh - length h))) by lia. rewrite !seq_app, !map_app. f_equal; [|f_equal].
    - apply map_ext_in. intros j Hj%in_seq. f_equal. unfold shifted_at. replace (j <? sh) with true by (symmetry; apply Nat.ltb_lt; lia). done.
    - replace (0 + sh) with sh by lia. transitivity (map (fun j => nmul (X j) (shifted_at n0 sh h j)) (map (Nat.add sh) (seq 0 (length h)))).
      + f_equal. pose proof (fmap_add_seq sh 0 (length h)) as Es. rewrite Nat.add_0_r in Es. by rewrite <- Es.
      + rewrite map_map. apply map_ext_in. intros k Hk%in_seq. rewrite (Nat.add_comm k). f_equal. unfold shifted_at.
        destruct ((sh + k <? sh) || (length h + sh <=? sh + k)) eqn:Eq.
        * apply orb_true_iff in Eq as [Eq|Eq]; [apply Nat.ltb_lt in Eq | apply Nat.leb_le in Eq]; lia.
        * do 2 f_equal. lia.
    - unfold E. replace (n - sh - length h) with (sh + (length h + (n - sh - length h)) - sh - length h) at 2 by lia. cbn [Nat.add].
      replace (sh + (length h + (n - sh - length h)) - sh - length h) with (n - sh - length h) by lia.
      apply map_ext_in. intros j Hj%in_seq. f_equal. unfold shifted_at. replace (length h + sh <=? j) with true by (symmetry; apply Nat.leb_le; lia). by rewrite orb_true_r. }
  assert (HB : forall p, p ∈ B ++ E -> usual p /\ val p = 0%R).
  { intros p [(j & -> & Hj)%elem_of_list_fmap|(j & -> & Hj)%elem_of_list_fmap]%elem_of_app; apply elem_of_seq in Hj; apply HX; lia. }
  split.
  - intros p. rewrite Eall, !elem_of_app. intros [Hp|[Hp|Hp]]; [|by apply Ht|]; apply HB; rewrite elem_of_app; auto.
  - exists (map val (B ++ E)). split.
    + intros z (p & -> & Hp)%elem_of_list_fmap. by apply HB.
    + rewrite Eall, <- map_app. apply Permutation_map. rewrite <- app_assoc. apply Permutation_app_head, Permutation_app_comm.
Qed.

Lemma simd_point_near r (h x : list A) (C : list A) fuel shifts L k conv i : let w := reg_len r in 0 < w ->
  good_shifts n0 w r (fun l => l) h shifts -> length C <= fuel -> length C = k * w -> C = take (k * w) (drop L x) -> L + k * w <= length x ->
  length h + L <= i + conv -> i + conv <= L + k * w -> (forall y, y ∈ x -> usual (nmul y n0) /\ val (nmul y n0) = 0%R) ->
  let taps := map (fun k => nmul (around n0 x (Z.of_nat i + Z.of_nat conv - 1 - Z.of_nat k)) (default n0 (h !! k))) (seq 0 (length h)) in
  (forall p, p ∈ taps -> usual p) ->
  exists q, simd_point (reg_bin nmul) reg_sum_real r shifts (chunks_fuel fuel w C) L conv i = Done q /\ near (length h + 2 * w) (map val taps) q.
Proof.
  intros w Hw [Hsl Hs] Hf HC Hpts HLx Hlo Hhi Hx taps Ht.
  unfold simd_point. rewrite usub_Done by lia. rewrite bind_Done, Hsl. set (e0 := i + conv - L) in *.
  assert (He0 : e0 = i + conv - L) by done. clearbody e0.
  assert (Hum : umod e0 w = Done (e0 mod w)) by (destruct w; [lia|done]). rewrite Hum, bind_Done, usub_Done by lia. rewrite bind_Done.
  assert (Hd : udiv (e0 + w - 1) w = Done ((e0 + w - 1) / w)) by (destruct w; [lia|done]). rewrite Hd, bind_Done.
  destruct (Hs (e0 mod w)) as (copy & Hcopy & Hfc & Hlen & Hlanes); [apply Nat.mod_upper_bound; lia|].
  rewrite (proj2 (rd_Done _ _ _) Hcopy), bind_Done. pose proof (round_up w e0 Hw) as Hr. set (e := (e0 + w - 1) / w) in *. clearbody e. clear Hd Hum.
  set (sh := (w - e0 mod w) mod w) in *. assert (Hsh : sh < w) by (apply Nat.mod_upper_bound; lia). clearbody sh.
  set (N := length copy) in *. assert (HN : N <= e) by nia. assert (Hek : e <= k) by nia.
  rewrite usub_Done by lia. rewrite bind_Done.
  destruct (center_regs_real w C fuel (e - N) e) as (regs & -> & Hreg & Hrl & Hrc); [done | done | rewrite HC; apply Nat.mod_mul; lia | lia | rewrite HC; nia |].
  rewrite bind_Done. eexists. split; [reflexivity|].
  destruct (product_registers regs copy w Hreg) as (P1 & P2 & P3 & P4); [by apply list.Forall_forall|fold N; lia|]. rewrite P4.
  change (foldl (reg_bin nadd) (splat r n0) ?l) with (plain_total r l). rewrite plain_lanes by exact P1. fold w. unfold reg_sum_real.
  set (X := fun j => default n0 (x !! (L + e * w - 1 - j))).
  assert (HNe : N * w <= e * w) by (apply Nat.mul_le_mono_r; lia). assert (Hekn : e * w <= k * w) by (apply Nat.mul_le_mono_r; lia).
  assert (HeN : (e - N) * w = e * w - N * w) by (rewrite Nat.mul_sub_distr_r; done).
  assert (Hitems : concat (zip_with (reg_bin nmul) regs copy) = rev (map (fun j => nmul (X j) (shifted_at n0 sh h j)) (seq 0 (N * w)))).
  { rewrite P2, Hrc, Hlanes. fold N. replace (e - (e - N)) with N by lia. rewrite Hpts.
    apply list_eq. intros q. destruct (decide (q < N * w)) as [Hq|Hq].
    - rewrite rev_lookup by (by rewrite map_length, seq_length). rewrite map_length, seq_length.
      change (map ?g (seq 0 (N * w))) with (g <$> seq 0 (N * w)). rewrite list_lookup_fmap, lookup_seq_lt by lia.
      rewrite lookup_zip_with, lookup_take by lia. rewrite lookup_drop, lookup_take by lia. rewrite lookup_drop.
      change (map ?g ?l) with (g <$> l). rewrite list_lookup_fmap, rev_lookup by (by rewrite seq_length). rewrite seq_length, lookup_seq_lt by lia.
      destruct (lookup_lt_is_Some_2 x (L + ((e - N) * w + q))) as [y Hy]; [lia|]. rewrite Hy. cbn. unfold X.
      replace (L + e * w - 1 - (N * w - 1 - q)) with (L + ((e - N) * w + q)) by lia. by rewrite Hy.
    - rewrite !lookup_ge_None_2; [done | rewrite rev_length, map_length, seq_length; lia |].
      rewrite zip_with_length, map_length, rev_length, seq_length. lia. }
  assert (Et : map (fun k => nmul (X (k + sh)) (default n0 (h !! k))) (seq 0 (length h)) = taps).
  { apply map_ext_in. intros j Hj%in_seq. f_equal. unfold X, around. f_equal. f_equal. rewrite circular_small by lia. lia. }
  destruct (shifted_products X h sh (N * w)) as (U & zs & Hz & Hp).
  { lia. }
  { intros j Hj. apply Hx. unfold X. destruct (lookup_lt_is_Some_2 x (L + e * w - 1 - j)) as [y Hy]; [lia|]. rewrite Hy. by apply elem_of_list_lookup_2 in Hy. }
  { rewrite Et. exact Ht. }
  rewrite Et in Hp. apply (near_zeros _ _ zs _ Hz). apply (near_perm val usual u _ _ _ _ Hp).
  pose proof (lanes_near w _ _ P1 Hitems) as G. rewrite P3 in G. fold N in G.
  apply (near_le val usual u Hu (N + (w - 1))). { assert (N <= length h + w + 1) by nia. lia. }
  apply (near_perm val usual u _ (map val (rev (map (fun j => nmul (X j) (shifted_at n0 sh h j)) (seq 0 (N * w)))))).
  { apply Permutation_map. symmetry. apply Permutation_rev. }
  apply G. intros p Hp'. apply U. by apply elem_of_list_In, in_rev, elem_of_list_In.
Qed.
End machine.

Section signal.
Context {A : Type} `{Num A} (val : A -> R) (usual : A -> Prop) (u : R) (HR : rounds val usual u) (Hu : (0 <= u)%R).

Theorem convolve_simd_near r addr s sched b (v o : dvec A) (x h : list A) : reg_ok r -> elem_aligned r addr -> half_aligned r addr -> reals v x -> reals o h ->
  lends b v (length x) -> length h < length x -> 2 * ((length h + 1) / 2 + reg_len r) < length x ->
  let taps i := map (fun k => nmul (around n0 x (Z.of_nat i + Z.of_nat ((length h + 1) / 2) - 1 - Z.of_nat k)) (default n0 (h !! k))) (seq 0 (length h)) in
  (forall y, y ∈ x -> usual (nmul y n0) /\ val (nmul y n0) = 0%R) -> (forall i p, i < length x -> p ∈ taps i -> usual p) ->
  exists v' b' y, convolve_signal_simd r addr s sched b v o = Done (v', b') /\ reals v' y /\ same_meta v v' /\ length y = length x /\
    forall i, i < length x -> exists q, y !! i = Some q /\ near val usual u (length h + 2 * reg_len r) (map val (taps i)) q.
Proof.
  intros Hr Ha Hh Hv Ho Hb Hlt Hsize taps Hx0 Hx. assert (Hww : 0 < reg_len r) by (by destruct Hr as (_ & ? & _)).
  destruct (shifts_real r o h Hww Ho) as (shifts & Hsh & Hgood). set (w := reg_len r) in *.
  pose proof (points_reals v x Hv) as Hpv. pose proof (points_reals o h Ho) as Hpo.
  assert (Hlen := reals_len v x (proj2 Hv)).
  destruct (align_long r addr (len v)) as (L & right & k & Hpart & Hl1 & Hr1 & Hn & Hcr & Hal & _); try done.
  { rewrite Hlen. fold w. lia. }
  fold w in Hl1, Hr1, Hn. set (m := length h) in *. set (conv := m - m / 2).
  assert (Hconv : conv = (m + 1) / 2). { subst conv. pose proof (Nat.div_mod (m + 1) 2). pose proof (Nat.mod_upper_bound (m + 1) 2). pose proof (Nat.div_mod m 2). pose proof (Nat.mod_upper_bound m 2). lia. }
  assert (Hmc : m <= 2 * conv) by (subst conv; pose proof (Nat.div_mod m 2); pose proof (Nat.mod_upper_bound m 2); lia).
  rewrite <- Hconv in Hsize. unfold taps in Hx |- *. rewrite <- Hconv in Hx |- *. clear taps.
  set (taps := fun i => map (fun k => nmul (around n0 x (Z.of_nat i + Z.of_nat conv - 1 - Z.of_nat k)) (default n0 (h !! k))) (seq 0 m)) in *.
  set (C := take (k * w) (drop L x)). assert (HCl : length C = k * w) by (subst C; rewrite take_length, drop_length; lia).
  set (q := conv + w) in *.
  set (pt := fun i => simd_point (reg_bin nmul) reg_sum_real r shifts (chunks_fuel (length C) w C) L conv i).
  set (vl := fun i => if (q <=? i) && (i <? length x - q) then match pt i with Done y => y | _ => n0 end else series n0 nadd m (fun k => nmul (around n0 x (Z.of_nat i + Z.of_nat conv - 1 - Z.of_nat k)) (default n0 (h !! k)))).
  assert (Hnear : forall i, i < length x -> near val usual u (m + 2 * w) (map val (taps i)) (vl i)).
  { intros i Hi. unfold vl. destruct ((q <=? i) && (i <? length x - q)) eqn:E.
    - apply andb_prop in E as [E1%Nat.leb_le E2%Nat.ltb_lt].
      destruct (simd_point_near val usual u HR Hu r h x C (length C) shifts L k conv i Hww Hgood) as (y & Ey & Hy); try done; fold w m; try lia.
      { intros p Hp. by apply (Hx i). }
      fold w in Ey. unfold pt. rewrite Ey. exact Hy.
    - unfold series. apply (near_le val usual u Hu m); [lia|]. pose proof (near_plain val usual u HR Hu (taps i)) as G. unfold taps in G at 2. rewrite map_length, seq_length in G.
      apply G. intros p Hp. by apply (Hx i). }
  assert (Hpt : forall i, q <= i -> i < length x - q -> pt i = Done (vl i)).
  { intros i E1 E2. unfold vl. replace (q <=? i) with true by (symmetry; by apply Nat.leb_le). replace (i <? length x - q) with true by (symmetry; by apply Nat.ltb_lt). cbn [andb].
    destruct (simd_point_near val usual u HR Hu r h x C (length C) shifts L k conv i Hww Hgood) as (y & Ey & Hy); try done; fold w m; try lia.
    { intros p Hp. apply (Hx i); [lia|done]. }
    fold w in Ey. unfold pt. by rewrite Ey. }
  assert (Hout : forall i, i < q \/ length x - q <= i -> convolve_iteration n0 nadd nmul x h i conv m = Done (vl i)).
  { intros i Hi. rewrite convolve_iteration_spec by (done || (intros ->; simpl in *; lia)). unfold vl.
    replace ((q <=? i) && (i <? length x - q)) with false; [done|]. symmetry. apply andb_false_iff. destruct Hi; [left; by apply Nat.leb_gt | right; by apply Nat.ltb_ge]. }
  assert (exists v' b', convolve_signal_simd r addr s sched b v o = Done (v', b') /\ reals v' (map vl (seq 0 (length x))) /\ same_meta v v') as (v' & b' & E & Hv' & Hm').
  2:{ exists v', b', (map vl (seq 0 (length x))). split; [exact E|]. split; [exact Hv'|]. split; [exact Hm'|]. split; [by rewrite map_length, seq_length|].
      intros i Hi. exists (vl i). split; [by rewrite list_lookup_fmap, lookup_seq_lt|by apply Hnear]. }
  unfold convolve_signal_simd. rewrite (proj1 Hv). unfold convolve_signal_simd_impl. rewrite Hpv, Hpo. cbv zeta. fold m.
  replace (m <? length x) with true by (symmetry; by apply Nat.ltb_lt). cbn [assert_]. rewrite bind_Done.
  apply (into_buffer_reals b v x); [done|done|by rewrite map_length, seq_length|].
  intros dest Hd. rewrite (proj2 Ho), bind_Done, (vdata_again o h (proj2 Ho)), bind_Done. unfold as_reals at 1. rewrite bind_Done.
  rewrite (slice_Done h) by (fold m; lia). rewrite drop_0, Nat.sub_0_r. replace (take m h) with h by (symmetry; apply firstn_all). rewrite bind_Done, Hsh, bind_Done.
  rewrite Hpart, bind_Done, Hcr, bind_Done. cbn [p_left]. rewrite (proj1 Hv).
  fold conv. rewrite Nat.div_1_r.
  destruct (vdata_split v x (proj2 Hv)) as (rest & He & Hnv).
  assert (Hsl : slice (elems v) L (len v - right) = Done C).
  { rewrite He. rewrite slice_Done by (rewrite ?app_length; lia). f_equal. replace (len v - right - L) with (k * w) by lia.
    rewrite drop_app_le by lia. rewrite take_app_le by (rewrite drop_length; lia). done. }
  rewrite Hsl, bind_Done. unfold regs_of at 1. assert (Hchk : regs_check r (addr + L * elem_size r) (length C) = true).
  { unfold regs_check. apply orb_true_iff. right. rewrite Hal. cbn [Nat.eqb andb]. apply Nat.eqb_eq. rewrite HCl. apply Nat.mod_mul. subst w. lia. }
  rewrite Hchk. cbn [assert_]. rewrite !bind_Done. fold w q.
  rewrite usub_Done by lia. rewrite bind_Done.
  assert (Hcut : q + (length x - q - q) + q = length dest) by lia.
  destruct (cut3 dest q (length x - q - q) q Hcut) as (dL & dC & dR & -> & H1 & H2 & H3).
  assert (Hs1 : slice (dL ++ dC ++ dR) q (length x - q) = Done dC).
  { rewrite slice_Done by (rewrite ?app_length; lia). f_equal. rewrite drop_app_alt by done. replace (length x - q - q) with (length dC) by lia. apply take_app. }
  rewrite Hs1, bind_Done.
  rewrite (execute_fill s sched (fun t => simd_point (reg_bin nmul) reg_sum_real r shifts (chunks_fuel (length C) w C) L conv (q + t)) (fun t => vl (q + t))).
  2:{ intros i Hi. apply Hpt; lia. }
  2:{ left. intros ->. simpl in H2. lia. }
  rewrite bind_Done. rewrite (splice_Done (dL ++ dC ++ dR)) by (rewrite map_length, seq_length, !app_length; lia). rewrite bind_Done.
  rewrite map_length, seq_length. assert (Et : take q (dL ++ dC ++ dR) = dL) by (by rewrite take_app_alt).
  assert (Ed : drop (q + length dC) (dL ++ dC ++ dR) = dR).
  { rewrite app_assoc. apply drop_app_alt. rewrite app_length. lia. }
  rewrite Et, Ed. set (mid := map (fun t => vl (q + t)) (seq 0 (length dC))).
  assert (Hml : length mid = length dC) by (subst mid; by rewrite map_length, seq_length).
  replace (length (dL ++ mid ++ dR)) with (length dL + length mid + length dR) by (rewrite !app_length; lia).
  replace (edge_update (length dL + length mid + length dR) q q) with (edge_update (A:=A) (length dL + length mid + length dR) (length dL) (length dR)) by (by rewrite H1, H3).
  rewrite (edge_update_spec _ (fun i _ => vl i)).
  2:{ intros i y Hi%lookup_lt_Some. apply Hout. lia. }
  2:{ intros i y Hi. apply Hout. lia. }
  f_equal. rewrite !imap_const_seq.
  transitivity (map vl (seq 0 (length dL)) ++ map vl (seq q (length dC)) ++ map vl (seq (q + length dC) (length dR))).
  - f_equal. f_equal.
    + subst mid. pose proof (fmap_add_seq q 0 (length dC)) as E. rewrite Nat.add_0_r in E. rewrite <- E. by rewrite <- list_fmap_compose.
    + rewrite H1, Hml. pose proof (fmap_add_seq (q + length dC) 0 (length dR)) as E. rewrite Nat.add_0_r in E. rewrite <- E. by rewrite <- list_fmap_compose.
  - rewrite <- !map_app. f_equal. rewrite <- seq_app, H1, H3. rewrite <- seq_app. f_equal. lia.
Qed.
End signal.
