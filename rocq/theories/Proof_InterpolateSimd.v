(** Interpolation with an impulse response, with SIMD registers. *)
From Verif Require Import Proof_Base Proof_Vec Proof_PadB Proof_Frame Proof_Window Proof_ConvSimdOps Proof_Interp Proof_Interpolatef.
From Verif Require Import Spec_Interpolate.
From stdpp Require Import list_numbers.
Local Open Scope R_scope.
Local Notation C := (R * R)%type.

(** ** The tables of the function *)
Definition tap (h : R -> R) (c : nat) (offset delay : R) (k : nat) : R := h (- (INR c - 1) + delay + INR k - offset).

Lemma function_to_vector_real h c offset delay : exists u, function_to_vector h c false offset delay = Done u /\
  reals u (map (tap h c offset delay) (seq 0 (2 * c + 1))).
Proof.
  unfold function_to_vector, construct, s_len. cbv zeta. cbn [s_elems s_kind]. rewrite replicate_length, andb_false_r, bind_Done.
  set (n := (2 * c + 1)%nat). rewrite (Nat.mul_1_l n). set (u := DVec _ _ _ _ _). change (elems u) with (replicate n n0).
  match goal with |- context [while_ ?ff ?cc ?bb ?ss] => destruct (while_inv
    (fun '(i, j, l) => (i <= n)%nat /\ j = - (INR c - 1) + delay + INR i /\ length l = n /\ forall k, (k < i)%nat -> l !! k = Some (tap h c offset delay k))
    (fun '(i, _, _) => n - i)%nat ff cc bb ss) as ([[i j] l] & -> & (H1 & H2 & H3 & H4) & H5) end.
  - split_and!; [lia | cbn; ring | apply replicate_length | lia].
  - lia.
  - intros [[i j] l] (H1 & H2 & H3 & H4) H5%Nat.ltb_lt. rewrite wr_Done by lia. rewrite bind_Done. eexists. split; [done|]. split; [|lia]. split_and!.
    + lia.
    + rewrite H2, plus_INR. cbn. ring.
    + by rewrite insert_length.
    + intros k Hk. destruct (decide (k = i)) as [->|Hne].
      * rewrite list_lookup_insert by lia. f_equal. rewrite H2. done.
      * rewrite list_lookup_insert_ne by lia. apply H4. lia.
  - rewrite bind_Done. eexists. split; [done|]. apply Nat.ltb_ge in H5. assert (i = n) as -> by lia. split; [done|].
    assert (El : l = map (tap h c offset delay) (seq 0 n)).
    { apply list_eq. intros k. change (map ?g ?x) with (g <$> x). rewrite list_lookup_fmap. destruct (decide (k < n)%nat) as [Hk|Hk].
      - rewrite H4, lookup_seq_lt by done. done.
      - rewrite !lookup_ge_None_2; [done | rewrite seq_length; lia | lia]. }
    apply (vdata_intro _ _ []); [by rewrite app_nil_r | by cbn; rewrite map_length, seq_length].
Qed.
Lemma function_to_vector_complex h c offset delay : exists u, function_to_vector h c true offset delay = Done u /\
  cplx u (map (fun k => of_real (tap h c offset delay k)) (seq 0 (2 * c + 1))).
Proof.
  unfold function_to_vector, construct, s_len. cbv zeta. cbn [s_elems s_kind]. rewrite replicate_length. rewrite <- Nat.negb_even.
  set (n := (2 * c + 1)%nat). rewrite even_double. cbn [negb andb]. rewrite bind_Done. set (u := DVec _ _ _ _ _). change (elems u) with (replicate (2 * n) n0).
  match goal with |- context [while_ ?ff ?cc ?bb ?ss] => destruct (while_inv
    (fun '(i, j, l) => exists q, i = (2 * q)%nat /\ (q <= n)%nat /\ j = - (INR c - 1) + delay + INR q /\
        l = complex_to_array (map (fun k => of_real (tap h c offset delay k)) (seq 0 q)) ++ replicate (2 * (n - q)) 0)
    (fun '(i, _, _) => 2 * n - i)%nat ff cc bb ss) as ([[i j] l] & -> & (q & H1 & H2 & H3 & H4) & H5) end.
  - exists 0%nat. split_and!; [done | lia | cbn; ring | by rewrite Nat.sub_0_r].
  - lia.
  - intros [[i j] l] (q & -> & H2 & H3 & ->) H5%Nat.ltb_lt. assert (Hll : length (complex_to_array (map (fun k => of_real (tap h c offset delay k)) (seq 0 q))) = (2 * q)%nat).
    { by rewrite complex_to_array_length, map_length, seq_length. }
    rewrite wr_Done by (rewrite app_length, replicate_length, Hll; lia). rewrite bind_Done. eexists. split; [done|]. split; [|lia].
    exists (q + 1)%nat. split_and!; [lia | lia | rewrite H3, plus_INR; cbn; ring|].
    rewrite insert_app_r_alt by lia. rewrite Hll, Nat.sub_diag. rewrite seq_app, map_app, complex_to_array_app, <- app_assoc. f_equal.
    replace (2 * (n - q))%nat with (S (S (2 * (n - (q + 1))))) by lia. cbn. f_equal. rewrite H3. done.
  - rewrite bind_Done. eexists. split; [done|]. apply Nat.ltb_ge in H5. assert (q = n) as -> by lia. split; [done|]. rewrite Nat.sub_diag in H4.
    apply (vdata_intro _ _ []); [done | by cbn; rewrite complex_to_array_length, map_length, seq_length].
Qed.

Section impl.
Context {P : Type} (zero : P) (add mul : P -> P -> P) (from : R -> P) (st ns : nat) (r : reg_type) (pts : list R -> list P)
    (simd_mul : list R -> list R -> list R) (simd_sum : list R -> P).
Context (V : point_view zero add mul st ns r pts simd_mul simd_sum).
Context (h : R -> R) (K c : nat) (delay : R) (HK : (0 < K)%nat).

(** The tables for the points between two samples *)
Definition taps (j : nat) : list P := map (fun k => from (tap h c (INR j / INR K) delay k)) (seq 0 (2 * c + 1)).
Lemma taps_length j : length (taps j) = (2 * c + 1)%nat.
Proof. unfold taps. by rewrite map_length, seq_length. Qed.
Lemma taps_lookup j k : (k < 2 * c + 1)%nat -> taps j !! k = Some (from (tap h c (INR j / INR K) delay k)).
Proof. intros Hk. unfold taps. change (map ?g ?x) with (g <$> x). by rewrite list_lookup_fmap, lookup_seq_lt. Qed.

Lemma concat_lookup {B} (ls : list (list B)) n j k l : Forall (fun x => length x = n) ls -> ls !! j = Some l -> (k < n)%nat -> concat ls !! (j * n + k)%nat = l !! k.
Proof.
  clear. intros Hf. revert j. induction Hf as [|x ls Hx Hf IH]; intros j Hj Hk; [done|]. destruct j as [|j].
  - injection Hj as ->. cbn [concat]. by rewrite lookup_app_l by lia.
  - cbn [concat]. rewrite lookup_app_r by lia. rewrite Hx. replace (S j * n + k - n)%nat with (j * n + k)%nat by lia. by apply IH.
Qed.

(** A point in the middle *)
Lemma middle_point (x : list P) (D : list R) fuel copies L k i :
  length copies = K -> (forall j cs, copies !! j = Some cs -> good_shifts zero ns r pts (taps j) cs) ->
  (length D <= fuel)%nat -> length D = (k * reg_len r)%nat -> pts D = take (k * ns) (drop L x) -> (L + k * ns <= length x)%nat ->
  (2 * c + 1 + L <= (i + K - 1) / K + c)%nat -> ((i + K - 1) / K + c <= L + k * ns)%nat ->
  simd_interpolation_point simd_mul simd_sum r (concat copies) (chunks_fuel fuel (reg_len r) D) L ns K c i =
  Done (series zero add (2 * c + 1) (fun k => mul (around zero x (Z.of_nat ((i + K - 1) / K) + Z.of_nat c - 1 - Z.of_nat k))
      (from (tap h c (INR ((K - i mod K) mod K) / INR K) delay k)))).
Proof using V HK.
  intros Hcl Hg Hf HD Hp HLx Hlo Hhi. pose proof (pv_ns _ _ _ _ _ _ _ _ _ V) as Hns.
  set (j := ((K - i mod K) mod K)%nat). assert (Hj : (j < K)%nat) by (apply Nat.mod_upper_bound; lia).
  destruct (lookup_lt_is_Some_2 copies j) as [cs Hcs]; [lia|]. pose proof (Hg j cs Hcs) as Hgs.
  assert (HF : Forall (fun cs => length cs = ns) copies).
  { apply Forall_lookup. intros jj ccs Hjj. by destruct (Hg jj ccs Hjj). }
  set (q := ((i + K - 1) / K)%nat) in *.
  transitivity (simd_point simd_mul simd_sum r cs (chunks_fuel fuel (reg_len r) D) L c q).
  - unfold simd_interpolation_point, simd_point. destruct Hgs as [Hl _]. rewrite Hl.
    assert (E1 : udiv (i + K - 1) K = Done q) by (unfold q; destruct K; [lia|done]). rewrite E1, bind_Done.
    rewrite !usub_Done by lia. rewrite !bind_Done. set (e := (q + c - L)%nat).
    assert (E2 : udiv (e + ns - 1) ns = Done ((e + ns - 1) / ns)%nat) by (destruct ns; [lia|done]). rewrite E2, bind_Done.
    assert (E3 : umod e ns = Done (e mod ns)%nat) by (destruct ns; [lia|done]). rewrite E3, !bind_Done.
    assert (E4 : umod i K = Done (i mod K)%nat) by (destruct K; [lia|done]). rewrite E4, bind_Done.
    assert (E5 : umod (K - i mod K) K = Done j) by (unfold j; destruct K; [lia|done]). rewrite E5, bind_Done.
    rewrite usub_Done by lia. rewrite bind_Done, E2, bind_Done.
    assert (Hem : (e mod ns < ns)%nat) by (apply Nat.mod_upper_bound; lia).
    unfold rd. rewrite (concat_lookup copies ns j (e mod ns) cs HF Hcs Hem). done.
  - rewrite (simd_point_spec zero add mul st ns r pts simd_mul simd_sum V (taps j) x D fuel cs L k c q); try done; [|rewrite taps_length; lia].
    f_equal. rewrite taps_length. unfold series. rewrite (foldl_sum_zero add zero (pv_monoid _ _ _ _ _ _ _ _ _ V)). f_equal. apply map_ext_in. intros a Ha%in_seq.
    by rewrite taps_lookup by lia.
Qed.

(** A point at the edge *)
Lemma edge_point (x : list P) (vectors : list (dvec R)) (arr : nat -> list R) i : x <> [] ->
  (forall j, (j < K)%nat -> exists u, vectors !! j = Some u /\ (if is_complex u then 2%nat else 1%nat) = st /\ vdata u = Done (arr j) /\
     forall k, (k < 2 * c + 1)%nat -> arr j !! (k * st)%nat = Some (tap h c (INR j / INR K) delay k)) ->
  simd_step zero add mul from i K c x vectors =
  Done (series zero add (2 * c + 1) (fun k => mul (around zero x (Z.of_nat (i / K) - Z.of_nat c + 1 + Z.of_nat k)) (from (tap h c (INR (i mod K) / INR K) delay k)))).
Proof using HK.
  intros Hx Hv. unfold simd_step. assert (E1 : udiv i K = Done (i / K)%nat) by (destruct K; [lia|done]). rewrite E1, bind_Done.
  rewrite wi_new_Done, bind_Done by (destruct x; [done | cbn; lia]). assert (E4 : umod i K = Done (i mod K)%nat) by (destruct K; [lia|done]). rewrite E4, bind_Done.
  destruct (Hv (i mod K)%nat) as (u & Hu & Hst & Hd & Ha); [apply Nat.mod_upper_bound; lia|]. rewrite (proj2 (rd_Done _ _ _) Hu), bind_Done. cbv zeta. rewrite Hst.
  rewrite (items_forward zero) by done. rewrite bind_Done, Hd, bind_Done.
  set (g := fun k => around zero x (Z.of_nat (i / K) - Z.of_nat c + 1 + Z.of_nat k)). set (T := fun k => tap h c (INR (i mod K) / INR K) delay k) in *.
  assert (Kx : forall n a z, (a + n <= 2 * c + 1)%nat -> foldl (fun m c0 => '(sum, j) ← m; x0 ← rd (arr (i mod K)%nat) j; Done (add sum (mul c0 (from x0)), (j + st)%nat)) (Done (z, (a * st)%nat)) (map g (seq a n)) =
     Done (foldl add z (map (fun k => mul (g k) (from (T k))) (seq a n)), ((a + n) * st)%nat)).
  { induction n as [|n IH]; intros a z Han; cbn [seq map foldl]; [by rewrite Nat.add_0_r|]. rewrite bind_Done, (proj2 (rd_Done _ _ _) (Ha a ltac:(lia))), bind_Done.
    replace (a * st + st)%nat with (S a * st)%nat by lia. rewrite IH by lia. f_equal. f_equal. f_equal. lia. }
  specialize (Kx (2 * c + 1)%nat 0%nat zero ltac:(lia)). change (0 * st)%nat with 0%nat in Kx. rewrite Kx, bind_Done. done.
Qed.
End impl.

(** ** All points *)
Section method.
Context {P : Type} (zero : P) (add mul : P -> P -> P) (from : R -> P) (st ns : nat) (r : reg_type) (pts : list R -> list P)
    (simd_mul : list R -> list R -> list R) (simd_sum : list R -> P) (convert : list R -> run (list P)) (back : list P -> list R).
Context (V : point_view zero add mul st ns r pts simd_mul simd_sum).
Context (h : R -> R) (K c : nat) (delay : R).

Definition edge_value (x : list P) (i : nat) : P :=
  series zero add (2 * c + 1) (fun k => mul (around zero x (Z.of_nat (i / K) - Z.of_nat c + 1 + Z.of_nat k)) (from (tap h c (INR (i mod K) / INR K) delay k))).
Definition middle_value (x : list P) (i : nat) : P :=
  series zero add (2 * c + 1) (fun k => mul (around zero x (Z.of_nat ((i + K - 1) / K) + Z.of_nat c - 1 - Z.of_nat k))
      (from (tap h c (INR ((K - i mod K) mod K) / INR K) delay k))).
Definition simd_value (x : list P) (M i : nat) : P :=
  if (i <? (2 * c + 1) * K)%nat || (M - (2 * c + 1) * K <=? i)%nat then edge_value x i else middle_value x i.

Theorem interpolate_simd_spec addr s sched b (v : dvec R) (D : list R) (x : list P) vectors copies (arr : nat -> list R) M :
  (0 < K)%nat -> reg_ok r -> elem_aligned r addr -> half_aligned r addr -> (st = 1%nat \/ (st = 2%nat /\ point_aligned r addr)) ->
  (if is_complex v then 2 else 1)%nat = st -> vdata v = Done D -> pts D = x -> length D = (st * length x)%nat -> convert D = Done x ->
  (forall t, length t = (st * M)%nat -> exists d, convert t = Done d /\ length d = M) -> (forall y, length (back y) = (st * length y)%nat) ->
  function_to_vectors h c (is_complex v) K delay = Done vectors -> length vectors = K ->
  (forall j, (j < K)%nat -> exists u, vectors !! j = Some u /\ points u = (2 * c + 1)%nat /\ (if is_complex u then 2%nat else 1%nat) = st /\ vdata u = Done (arr j) /\
     forall k, (k < 2 * c + 1)%nat -> arr j !! (k * st)%nat = Some (tap h c (INR j / INR K) delay k)) ->
  all_done (map (create_shifted_copies r) vectors) = Done copies -> length copies = K ->
  (forall j cs, copies !! j = Some cs -> good_shifts zero ns r pts (taps from h K c delay j) cs) ->
  (ns <= c + 1)%nat -> (4 * c + 2 <= length x)%nat -> (length x * K <= M <= length x * K + 1)%nat -> lends b v (st * M) ->
  (0 < M - 2 * ((2 * c + 1) * K))%nat \/ no_threads_for_nothing Large s ->
  exists v' b', interpolate_simd zero add mul from convert back simd_mul simd_sum h K delay c (st * M) r addr s sched b v = Done (v', b') /\
    vdata v' = Done (back (map (simd_value x M) (seq 0 M))) /\ same_meta v v'.
Proof using V.
  intros HK Hr Ha Hh Hst Hc Hv Hpt HD Hcv Hcd Hback Hvec HvK Hvecs Hcop HcK Hgood Hnsc Hsize HM Hb Hthr. unfold interpolate_simd.
  destruct (borrow_lends n0 b v (st * M) Hb) as (temp & -> & Ht). rewrite bind_Done. cbv zeta. rewrite Hvec, bind_Done, Hcop, bind_Done.
  rewrite (slice_Done temp 0 (st * M)) by (rewrite ?Ht; lia). rewrite bind_Done, drop_0, Nat.sub_0_r, take_ge by (rewrite Ht; done). destruct (Hcd temp Ht) as (dest & -> & Hdest). rewrite bind_Done.
  destruct (Hvecs 0%nat HK) as (u0 & Hu0 & Hp0 & _). rewrite (proj2 (rd_Done _ _ _) Hu0), bind_Done, Hp0. rewrite Hc.
  set (S_ := ((2 * c + 1) * K)%nat). assert (HS : (2 * S_ <= length x * K)%nat) by (unfold S_; nia).
  set (w := reg_len r) in *.
  pose proof (pv_ns _ _ _ _ _ _ _ _ _ V) as Hns. pose proof (pv_step _ _ _ _ _ _ _ _ _ V) as Hst0. pose proof (pv_len _ _ _ _ _ _ _ _ _ V) as Hw. fold w in Hw.
  pose proof (reals_len v D Hv) as Hlen. destruct (align_long r addr (len v)) as (left & right & k & -> & Hl1 & Hr1 & Hn & Hcr & Hal & Hev); try done.
  { rewrite Hlen, HD. fold w. rewrite Hw. nia. }
  fold w in Hl1, Hr1, Hn. rewrite bind_Done. destruct (vdata_split v D Hv) as (rest & He & Hnv).
  assert (Hsd : slice (elems v) 0 (len v) = Done D). { rewrite He, Hlen. apply slice_pre. }
  rewrite Hsd, bind_Done. cbn [p_left].
  assert (HL : exists L, left = (st * L)%nat). { destruct Hst as [->|[-> Hp]]; [exists left; lia|]. exists (left / 2)%nat. apply Nat.div_exact; [lia|]. by apply Hev. }
  destruct HL as [L HL]. assert (HLdiv : udiv left st = Done L). { rewrite HL, Nat.mul_comm. destruct st; [lia|]. cbn [udiv]. f_equal. by rewrite Nat.div_mul. }
  rewrite HLdiv, bind_Done, Hcr, bind_Done.
  (* the center *)
  set (Ce := take (k * w) (drop left D)). assert (HCl : length Ce = (k * w)%nat) by (subst Ce; rewrite take_length, drop_length; lia).
  assert (Hsl : slice (elems v) left (len v - right) = Done Ce).
  { rewrite He. rewrite slice_Done by (rewrite ?app_length; lia). f_equal. replace (len v - right - left)%nat with (k * w)%nat by lia.
    rewrite drop_app_le by lia. rewrite take_app_le by (rewrite drop_length; lia). done. }
  rewrite Hsl, bind_Done. unfold regs_of at 1. assert (Hchk : regs_check r (addr + left * elem_size r) (length Ce) = true).
  { unfold regs_check. apply orb_true_iff. right. rewrite Hal. cbn [Nat.eqb andb]. apply Nat.eqb_eq. rewrite HCl. apply Nat.mod_mul. subst w. destruct Hr as (_ & ? & _). lia. }
  rewrite Hchk. cbn [assert_]. rewrite !bind_Done. fold w.
  assert (Hww : (0 < w)%nat) by (destruct Hr as (_ & ? & _); done).
  assert (Hxn : exists RR, length x = (L + k * ns + RR)%nat /\ (RR < ns)%nat).
  { exists (length x - L - k * ns)%nat. rewrite Hw in Hn, Hr1. rewrite Hlen, HD, HL in Hn. nia. }
  destruct Hxn as (RR & Hxn & HR). assert (HLns : (L < ns)%nat) by (rewrite Hw, HL in Hl1; nia).
  assert (Hpts : pts Ce = take (k * ns) (drop L x)).
  { assert (E1 : pts D = pts (take left D) ++ pts (drop left D)).
    { rewrite <- (pv_app _ _ _ _ _ _ _ _ _ V); [by rewrite take_drop|]. rewrite take_length, Nat.min_l by lia. rewrite HL, Nat.mul_comm. apply Nat.mod_mul. lia. }
    assert (E2 : length (pts (take left D)) = L).
    { pose proof (pv_pts _ _ _ _ _ _ _ _ _ V (take left D)) as E. rewrite take_length, Nat.min_l in E by lia. rewrite HL in E at 1 2. rewrite Nat.mul_comm, Nat.mod_mul in E by lia.
      specialize (E eq_refl). nia. }
    subst Ce. rewrite (view_take zero add mul st ns r pts simd_mul simd_sum V) by (fold w; rewrite drop_length; lia).
    f_equal. rewrite <- Hpt, E1. by rewrite drop_app_alt. }
  assert (Ensr : udiv w st = Done ns). { rewrite Hw, Nat.mul_comm. destruct st; [lia|]. cbn [udiv]. f_equal. by rewrite Nat.div_mul. }
  rewrite Ensr, bind_Done. rewrite Hdest, usub_Done, bind_Done by lia.
  assert (Hcut : (S_ + (M - S_ - S_) + S_ = length dest)%nat) by lia.
  destruct (cut3 dest S_ (M - S_ - S_) S_ Hcut) as (dL & dC & dR & -> & H1 & H2 & H3).
  assert (Hs1 : slice (dL ++ dC ++ dR) S_ (M - S_) = Done dC).
  { rewrite slice_Done by (rewrite ?app_length; lia). f_equal. rewrite drop_app_alt by done. replace (M - S_ - S_)%nat with (length dC) by lia. apply take_app. }
  rewrite Hs1, bind_Done.
  rewrite (execute_fill s sched (fun t => simd_interpolation_point simd_mul simd_sum r (concat copies) (chunks_fuel (length Ce) w Ce) L ns K c (S_ + t)) (fun t => middle_value x (S_ + t))).
  2: { intros i Hi. subst w.
      pose proof (middle_point zero add mul from st ns r pts simd_mul simd_sum V h K c delay HK x Ce (length Ce) copies L k (S_ + i)) as E. apply E; try done; try lia.
      + assert (Hge : (2 * c + 1 <= (S_ + i + K - 1) / K)%nat) by (apply Nat.div_le_lower_bound; unfold S_; lia). lia.
      + assert (Hle : ((S_ + i + K - 1) / K <= length x - 2 * c - 1)%nat). { apply Nat.lt_succ_r. apply Nat.div_lt_upper_bound; [lia|]. unfold S_ in *. nia. }
        lia. }
  2: { destruct Hthr as [Hthr|Hthr]; [left; intros ->; cbn in H2; fold S_ in Hthr; lia | by right]. }
  rewrite bind_Done. rewrite (splice_Done (dL ++ dC ++ dR)) by (rewrite map_length, seq_length, !app_length; lia). rewrite bind_Done. rewrite ?Hsd, ?bind_Done, ?Hcv, ?bind_Done.
  rewrite map_length, seq_length. assert (Et : take S_ (dL ++ dC ++ dR) = dL) by (by rewrite take_app_alt).
  assert (Ed : drop (S_ + length dC) (dL ++ dC ++ dR) = dR).
  { rewrite app_assoc. apply drop_app_alt. rewrite app_length. lia. }
  rewrite Et, Ed. set (mid := map (fun t => middle_value x (S_ + t)) (seq 0 (length dC))).
  assert (Hml : length mid = length dC) by (subst mid; by rewrite map_length, seq_length).
  replace (length (dL ++ mid ++ dR)) with (length dL + length mid + length dR)%nat by (rewrite !app_length; lia).
  assert (Hxne : x <> []) by (intros E; rewrite E in Hsize; cbn in Hsize; lia).
  assert (Hval : forall i, simd_step zero add mul from i K c x vectors = Done (edge_value x i)).
  { intros i. apply (edge_point zero add mul from st h K c delay HK x vectors arr i Hxne). intros j Hj. destruct (Hvecs j Hj) as (u & ? & ? & ? & ? & ?). by exists u. }
  replace (edge_update (length dL + length mid + length dR) S_ S_) with (edge_update (A:=P) (length dL + length mid + length dR) (length dL) (length dR)) by (by rewrite H1, H3).
  rewrite (edge_update_spec _ (fun i _ => edge_value x i)) by (intros; apply Hval). rewrite bind_Done. rewrite !imap_const_seq.
  set (y := map _ _ ++ mid ++ map _ _).
  assert (Ey : y = map (simd_value x M) (seq 0 M)).
  { unfold y. transitivity (map (simd_value x M) (seq 0 (length dL)) ++ map (simd_value x M) (seq S_ (length dC)) ++ map (simd_value x M) (seq (S_ + length dC) (length dR))).
    - f_equal; [|f_equal].
      + apply map_ext_in. intros i Hi%in_seq. unfold simd_value. fold S_. rewrite (proj2 (Nat.ltb_lt i S_)) by lia. done.
      + subst mid. pose proof (fmap_add_seq S_ 0 (length dC)) as E. rewrite Nat.add_0_r in E. rewrite <- E. change (Nat.add S_ <$> seq 0 (length dC)) with (map (Nat.add S_) (seq 0 (length dC))).
        rewrite map_map. apply map_ext_in. intros i Hi%in_seq. unfold simd_value. fold S_. rewrite (proj2 (Nat.ltb_ge (S_ + i) S_)) by lia.
        rewrite (proj2 (Nat.leb_gt (M - S_) (S_ + i))) by lia. done.
      + rewrite H1, Hml. pose proof (fmap_add_seq (S_ + length dC) 0 (length dR)) as E. rewrite Nat.add_0_r in E. rewrite <- E.
        change (Nat.add (S_ + length dC) <$> seq 0 (length dR)) with (map (Nat.add (S_ + length dC)) (seq 0 (length dR))).
        rewrite map_map. apply map_ext_in. intros i Hi%in_seq. unfold simd_value. fold S_.
        rewrite (proj2 (Nat.leb_le (M - S_) (S_ + length dC + i))) by lia. by rewrite orb_true_r.
    - rewrite <- !map_app. f_equal. rewrite <- seq_app, H1, H3. rewrite <- seq_app. f_equal. lia. }
  rewrite Ey. assert (Hyl : length (back (map (simd_value x M) (seq 0 M))) = (st * M)%nat) by (rewrite Hback, map_length, seq_length; done).
  rewrite (splice_Done temp) by (rewrite Hyl, Ht; lia). rewrite bind_Done, take_0, drop_ge, app_nil_r by (rewrite Hyl, Ht; lia). cbn [app].
  destruct (trade_vdata b v _ (st * M) Hb Hyl) as (v' & b' & E & Hv' & Hm). destruct (trade b _ (Model_Vec.data v)) as [sto b''] eqn:Etr.
  injection E as Ev Eb. exists v', b'. split; [|done]. rewrite <- Ev, <- Eb. done.
Qed.
End method.
