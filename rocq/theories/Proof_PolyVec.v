(** The vector methods with the polynomial approximations *)
From Verif Require Import Proof_Elem Proof_ElemOps Proof_ComplexMath Proof_Approx Proof_SimdMixed.
From Verif Require Export Proof_Poly.
From Coq Require Import Reals Lra Lia ZArith.

Section lanes.
Context {A : Type} `{Num A} `{Flt A} `{Bits A} `{Math A}.

(** The function of a lane *)
Definition lane_of (f : approximation A) (x : A) : A :=
  match f with
  | Ln_approx => ln_lane x
  | Exp_approx => exp_lane x
  | Sin_approx => sin_cos_lane true x
  | Cos_approx => sin_cos_lane false x
  | Log_approx b => (ln_lane x / rmath Ln b)%num
  | Expf_approx b => exp_lane (rmath Ln b * x)%num
  | Powf_approx y => exp_lane (ln_lane x * y)%num
  end.

Theorem vapprox_simd_mixed f r addr s sched (v : dvec A) l : reg_ok r -> elem_aligned r addr -> address_ok r addr v -> reals v l ->
  exists v' L C R, l = L ++ C ++ R /\ vapprox_simd f r addr s sched v = Done v' /\
    reals v' (map (by_way_of_ln f) L ++ map (lane_of f) C ++ map (by_way_of_ln f) R) /\ same_meta v v' /\ same_rest v v' /\
    (if decide (length l < (addr mod reg_bytes r) / elem_size r + reg_len r) then C = []
     else length L = (addr mod reg_bytes r) / elem_size r /\ length R < reg_len r /\ length C mod reg_len r = 0).
Proof.
  intros Hr Ha Hok Hv. pose proof (address_ok_real r addr v l (proj2 Hv) Hok) as Hf. destruct Hv as [Hc Hv]. unfold vapprox_simd. rewrite Hc. cbv zeta.
  assert (K : forall simd_op scalar_op, (forall b : list A, length b = reg_len r -> simd_op b = map (lane_of f) b) -> (forall x, scalar_op x = by_way_of_ln f x) ->
    exists v' L C R, l = L ++ C ++ R /\ simd_real_operation r addr s sched simd_op scalar_op Small v = Done v' /\
      reals v' (map (by_way_of_ln f) L ++ map (lane_of f) C ++ map (by_way_of_ln f) R) /\ same_meta v v' /\ same_rest v v' /\
      (if decide (length l < (addr mod reg_bytes r) / elem_size r + reg_len r) then C = []
       else length L = (addr mod reg_bytes r) / elem_size r /\ length R < reg_len r /\ length C mod reg_len r = 0)).
  { intros so sc H3 H4. destruct (simd_real_operation_mixed r addr s sched so (lane_of f) sc Small v l Hr Ha (nothing_small s) Hv H3 Hf)
      as (v' & L & C & R & E & D & Dv & M & Rs & W).
    exists v', L, C, R. split; [exact E|]. split; [exact D|]. split; [|by split_and!]. split; [by rewrite (meta_is_complex v v' M)|].
    rewrite <- !(map_ext _ _ H4). exact Dv. }
  destruct f; apply K; try done; intros bl Hb.
  - rewrite reg_bin_splat by (by rewrite map_length). by rewrite map_map.
  - rewrite reg_bin_splat_l by done. by rewrite map_map.
  - rewrite reg_bin_splat by (by rewrite map_length). by rewrite !map_map.
Qed.

(** The first element of an aligned vector with a full register *)
Lemma first_in_register f r addr s sched (v : dvec A) l x : reg_ok r -> elem_aligned r addr -> address_ok r addr v -> reals v l ->
  addr mod reg_bytes r = 0 -> reg_len r <= length l -> l !! 0 = Some x ->
  exists v' l', vapprox_simd f r addr s sched v = Done v' /\ reals v' l' /\ l' !! 0 = Some (lane_of f x).
Proof.
  intros Hr Ha Hok Hv Had Hlen Hx. destruct (vapprox_simd_mixed f r addr s sched v l Hr Ha Hok Hv) as (v' & L & C & R & E & D & Hd & _ & _ & W).
  assert (He : elem_size r <> 0) by (destruct Hr as (? & _); lia). assert (Hl : 0 < reg_len r) by (by destruct Hr as (_ & ? & _)).
  rewrite Had, Nat.div_0_l in W by done. rewrite decide_False in W by lia. destruct W as (HL & HR & HC).
  apply nil_length_inv in HL. subst L. cbn [app map] in *. exists v', (map (lane_of f) C ++ map (by_way_of_ln f) R). split; [exact D|]. split; [exact Hd|].
  assert (HC0 : C <> []) by (intros ->; cbn [app] in E; subst R; lia).
  destruct C as [|c C]; [done|]. subst l. cbn in Hx |- *. by injection Hx as ->.
Qed.
Lemma last_behind_register f r addr s sched (v : dvec A) x : reg_ok r -> elem_aligned r addr -> address_ok r addr v ->
  addr mod reg_bytes r = 0 -> 2 <= reg_len r -> reals v (replicate (S (reg_len r)) x) ->
  exists v' l', vapprox_simd f r addr s sched v = Done v' /\ reals v' l' /\ l' !! 0 = Some (lane_of f x) /\ l' !! reg_len r = Some (by_way_of_ln f x).
Proof.
  intros Hr Ha Hok Had Hlen Hv. destruct (vapprox_simd_mixed f r addr s sched v _ Hr Ha Hok Hv) as (v' & L & C & R & E & D & Hd & _ & _ & W).
  assert (He : elem_size r <> 0) by (destruct Hr as (? & _); lia).
  rewrite Had, Nat.div_0_l in W by done. rewrite replicate_length in W. rewrite decide_False in W by lia. destruct W as (HL & HR & HC).
  apply nil_length_inv in HL. subst L. cbn [app map] in *. exists v', (map (lane_of f) C ++ map (by_way_of_ln f) R). split; [exact D|]. split; [exact Hd|].
  assert (Hn : length C + length R = S (reg_len r)) by (rewrite <- app_length, <- E; cbn [length]; by rewrite replicate_length).
  assert (HCl : length C = reg_len r).
  { pose proof (Nat.div_mod (length C) (reg_len r) ltac:(lia)) as Hdm. rewrite HC in Hdm. set (q := length C / reg_len r) in *. clearbody q.
    destruct q as [|[|q]]; [lia | lia | nia]. }
  change (x :: replicate (reg_len r) x) with (replicate (S (reg_len r)) x) in E.
  assert (Hall : forall i y, (C ++ R) !! i = Some y -> y = x) by (intros i y Hy; rewrite <- E in Hy; by apply lookup_replicate in Hy as [-> _]).
  split.
  - rewrite lookup_app_l by (rewrite map_length; lia). destruct C as [|c C]; [cbn in HCl; lia|]. cbn. f_equal. f_equal. by apply (Hall 0).
  - rewrite lookup_app_r by (rewrite map_length; lia). rewrite map_length, HCl, Nat.sub_diag. destruct R as [|c R]; [cbn in Hn; lia|].
    cbn. f_equal. f_equal. apply (Hall (length C)). rewrite lookup_app_r by lia. by rewrite Nat.sub_diag.
Qed.
End lanes.

Section over_R.
Context (b : Z) `{M : Math R}.
Local Instance bits_vec : Bits R := Rbits b.
Local Open Scope R_scope.

Lemma all_pairs_map2 (P : R -> R -> Prop) (g h : R -> R) L C Rr : (forall x, x ∈ L ++ C ++ Rr -> P x (g x)) -> (forall x, x ∈ L ++ C ++ Rr -> P x (h x)) ->
  all_pairs P (L ++ C ++ Rr) (map g L ++ map h C ++ map g Rr).
Proof.
  intros Hg Hh. split; [by rewrite !app_length, !map_length|].
  assert (F : Forall2 P (L ++ C ++ Rr) (map g L ++ map h C ++ map g Rr)).
  { assert (Hm : forall (k : R -> R) l, (forall x, x ∈ l -> P x (k x)) -> Forall2 P l (map k l)).
    { intros k l Hk. induction l as [|x l IH]; cbn [map]; constructor; [apply Hk; left | apply IH; intros y Hy; apply Hk; by right]. }
    apply Forall2_app; [|apply Forall2_app]; apply Hm; intros x Hx; (apply Hg || apply Hh); rewrite !elem_of_app; tauto. }
  intros i x y Hx Hy. exact (Forall2_lookup_lr _ _ _ _ _ _ F Hx Hy).
Qed.

Lemma vapprox_simd_all f (P : R -> R -> Prop) r addr s sched (v : dvec R) l : reg_ok r -> elem_aligned r addr -> address_ok r addr v -> reals v l ->
  (forall x, x ∈ l -> P x (by_way_of_ln f x)) -> (forall x, x ∈ l -> P x (lane_of f x)) ->
  exists v' l', vapprox_simd f r addr s sched v = Done v' /\ reals v' l' /\ all_pairs P l l' /\ same_meta v v' /\ same_rest v v'.
Proof.
  intros Hr Ha Hok Hv H1 H2. destruct (vapprox_simd_mixed f r addr s sched v l Hr Ha Hok Hv) as (v' & L & C & Rr & E & D & Hd & Hm & Hs & _).
  exists v', (map (by_way_of_ln f) L ++ map (lane_of f) C ++ map (by_way_of_ln f) Rr). split; [exact D|]. split; [exact Hd|].
  split; [|by split]. rewrite E in *. by apply all_pairs_map2.
Qed.

Lemma off_by_self eps x : 0 <= eps -> off_by eps x x.
Proof. intros He. unfold off_by. replace (x - x) with 0 by lra. by rewrite Rabs_R0. Qed.
Lemma off_by_rel_self eps x : 0 <= eps -> off_by_rel eps x x.
Proof. intros He. unfold off_by_rel. replace (x - x) with 0 by lra. rewrite Rabs_R0. apply Rmult_le_pos; [done | apply Rabs_pos]. Qed.

Lemma abs_le_iff x a : Rabs x <= a <-> - a <= x <= a.
Proof. unfold Rabs. destruct (Rcase_abs x); lra. Qed.
Lemma exp_lane_87 x : (127 <= b)%Z -> Rabs x <= 87 -> off_by_rel (2 / 100000000) (exp x) (exp_lane x).
Proof.
  intros Hb Hx. apply abs_le_iff in Hx. apply (exp_lane_rel b); [unfold exp_hi; lra|]. pose proof (turns_87 x ltac:(lra)). lia.
Qed.

Lemma log_lane_abs base x : (1 <= b <= 1023)%Z -> normalised b x -> ln base <> 0 -> off_by (139 / 10000 / Rabs (ln base)) (ln x / ln base) (ln_lane x / ln base).
Proof.
  intros Hb Hx Hl. pose proof (ln_lane_abs b x Hb Hx) as Ha. unfold off_by in *.
  replace (ln_lane x / ln base - ln x / ln base) with ((ln_lane x - ln x) / ln base) by (field; done).
  unfold Rdiv at 1. rewrite Rabs_mult, Rabs_inv. apply Rmult_le_compat_r; [|exact Ha]. left. by apply Rinv_0_lt_compat, Rabs_pos_lt.
Qed.
Lemma log_lane_rel base x : (1 <= b <= 1023)%Z -> normalised b x -> 1 <= x -> (x <= 15 / 8 \/ 2 <= x) -> ln base <> 0 ->
  off_by_rel (1 / 100) (ln x / ln base) (ln_lane x / ln base).
Proof.
  intros Hb Hx H1 Hr Hl. pose proof (ln_lane_rel b x Hb Hx H1 Hr) as Ha. unfold off_by_rel in *.
  replace (ln_lane x / ln base - ln x / ln base) with ((ln_lane x - ln x) / ln base) by (field; done).
  unfold Rdiv at 1 3. rewrite !Rabs_mult, <- Rmult_assoc. apply Rmult_le_compat_r; [apply Rabs_pos|exact Ha].
Qed.

(** The power *)
Lemma pow_lane x p : (127 <= b <= 1023)%Z -> normalised b x -> Rabs (p * ln x) + 139 / 10000 * Rabs p <= 87 ->
  (1 - 2 / 100000000) * exp (p * ln x - 139 / 10000 * Rabs p) <= exp_lane (ln_lane x * p) <= (1 + 2 / 100000000) * exp (p * ln x + 139 / 10000 * Rabs p).
Proof.
  intros Hb Hx Hp. pose proof (ln_lane_abs b x ltac:(lia) Hx) as Ha. unfold off_by in Ha.
  assert (Hd : Rabs (ln_lane x * p - p * ln x) <= 139 / 10000 * Rabs p).
  { replace (ln_lane x * p - p * ln x) with ((ln_lane x - ln x) * p) by ring. rewrite Rabs_mult. apply Rmult_le_compat_r; [apply Rabs_pos | exact Ha]. }
  assert (Hy : Rabs (ln_lane x * p) <= 87).
  { replace (ln_lane x * p) with ((ln_lane x * p - p * ln x) + p * ln x) by ring. eapply Rle_trans; [apply Rabs_triang|]. lra. }
  pose proof (exp_lane_87 _ ltac:(lia) Hy) as He. unfold off_by_rel in He. set (y := ln_lane x * p) in *. pose proof (exp_pos y).
  rewrite (Rabs_pos_eq (exp y)) in He by lra. apply abs_le_iff in He. apply abs_le_iff in Hd.
  assert (Hexp : forall u w, u <= w -> exp u <= exp w) by (intros u w [Hu| ->]; [left; by apply exp_increasing | lra]).
  pose proof (Hexp (p * ln x - 139 / 10000 * Rabs p) y ltac:(lra)). pose proof (Hexp y (p * ln x + 139 / 10000 * Rabs p) ltac:(lra)).
  pose proof (exp_pos (p * ln x - 139 / 10000 * Rabs p)). lra.
Qed.
End over_R.
