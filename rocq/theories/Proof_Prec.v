From Verif Require Import Proof_StatsOps Spec_Prec.
From stdpp Require Import list_numbers.
From Coq Require Import Lia.
Local Open Scope R_scope.

(** ** Sums of real numbers *)
Lemma Rsum_nil : Rsum [] = 0. Proof. reflexivity. Qed.
Lemma Rsum_app l l' : Rsum (l ++ l') = Rsum l + Rsum l'.
Proof. unfold Rsum. induction l as [|x l IH]; cbn [app foldr]; [lra|]. rewrite IH. lra. Qed.
Lemma Rsum_snoc l x : Rsum (l ++ [x]) = Rsum l + x.
Proof. rewrite Rsum_app. unfold Rsum at 2. cbn [foldr]. lra. Qed.
Lemma Rsum_abs_pos l : 0 <= Rsum (map Rabs l).
Proof. unfold Rsum. induction l as [|x l IH]; cbn [map foldr]; [lra|]. pose proof (Rabs_pos x). lra. Qed.
Lemma Rsum_abs_snoc l x : Rsum (map Rabs (l ++ [x])) = Rsum (map Rabs l) + Rabs x.
Proof. rewrite map_app. cbn [map]. apply Rsum_snoc. Qed.
Lemma Rsum_abs_le l : Rabs (Rsum l) <= Rsum (map Rabs l).
Proof.
  unfold Rsum. induction l as [|x l IH]; cbn [map foldr]; [rewrite Rabs_R0; lra|].
  pose proof (Rabs_triang x (foldr Rplus 0 l)). lra.
Qed.

(** ** One step of the compensated sum. [b] is the sum of the magnitudes with the new number, [b0] without it. *)
Lemma kahan_step u s c x y s' d c' total b0 k :
  0 <= u <= / 1024 -> 0 <= k -> k * u <= / 64 -> 0 <= b0 ->
  Rabs total <= b0 ->
  Rabs (s - c - total) <= (2 * u + 9 * k * (u * u)) * b0 -> Rabs c <= 9 / 4 * u * b0 ->
  Rabs (y - (x - c)) <= u * Rabs (x - c) -> Rabs (s' - (s + y)) <= u * Rabs (s + y) ->
  Rabs (d - (s' - s)) <= u * Rabs (s' - s) -> Rabs (c' - (d - y)) <= u * Rabs (d - y) ->
  let b := b0 + Rabs x in
  Rabs (s' - c' - (total + x)) <= (2 * u + 9 * (k + 1) * (u * u)) * b /\ Rabs c' <= 9 / 4 * u * b.
Proof.
  intros Hu Hk Hku Hb0 HT HE Hc Hy Hs Hd Hc' b.
  set (e1 := y - (x - c)) in *. set (e2 := s' - (s + y)) in *. set (e3 := d - (s' - s)) in *. set (e4 := c' - (d - y)) in *.
  set (a := Rabs x) in *. assert (Ha : 0 <= a) by apply Rabs_pos.
  assert (Hb : b = b0 + a) by reflexivity. clearbody b.
  (* products *)
  assert (P1 : 0 <= u * a <= / 1024 * a) by (split; [apply Rmult_le_pos; lra|apply Rmult_le_compat_r; lra]).
  assert (P2 : 0 <= u * b0 <= / 1024 * b0) by (split; [apply Rmult_le_pos; lra|apply Rmult_le_compat_r; lra]).
  assert (P3 : 0 <= u * (u * a) <= / 1024 * (u * a)) by (split; [apply Rmult_le_pos; lra|apply Rmult_le_compat_r; lra]).
  assert (P4 : 0 <= u * (u * b0) <= / 1024 * (u * b0)) by (split; [apply Rmult_le_pos; lra|apply Rmult_le_compat_r; lra]).
  assert (P5 : 0 <= u * (u * (u * a)) <= / 1024 * (u * (u * a))) by (split; [apply Rmult_le_pos; lra|apply Rmult_le_compat_r; lra]).
  assert (P6 : 0 <= u * (u * (u * b0)) <= / 1024 * (u * (u * b0))) by (split; [apply Rmult_le_pos; lra|apply Rmult_le_compat_r; lra]).
  assert (P7 : 0 <= k * u * (u * b0) <= / 64 * (u * b0)).
  { split; [apply Rmult_le_pos; [apply Rmult_le_pos|]; lra|apply Rmult_le_compat_r; lra]. }
  assert (P8 : 0 <= k * u * (u * a)) by (apply Rmult_le_pos; [apply Rmult_le_pos|]; lra).
  (* magnitudes *)
  assert (Ax : Rabs (x - c) <= a + Rabs c) by (unfold a; replace (x - c) with (x + - c) by ring; rewrite <- (Rabs_Ropp c); apply Rabs_triang).
  assert (Hc1 : Rabs c <= 9 / 4 * (u * b0)) by (replace (9 / 4 * (u * b0)) with (9 / 4 * u * b0) by ring; exact Hc). clear Hc.
  assert (HE1 : Rabs (s - c - total) <= 2 * (u * b0) + 9 * (k * u * (u * b0))).
  { replace (2 * (u * b0) + 9 * (k * u * (u * b0))) with ((2 * u + 9 * k * (u * u)) * b0) by ring. exact HE. } clear HE.
  assert (E1 : Rabs e1 <= u * a + 9 / 4 * (u * (u * b0))).
  { apply (Rle_trans _ _ _ Hy). apply (Rle_trans _ (u * (a + 9 / 4 * (u * b0)))); [apply Rmult_le_compat_l; lra|lra]. } clear Hy.
  assert (Ay : Rabs y <= a + 9 / 4 * (u * b0) + (u * a + 9 / 4 * (u * (u * b0)))).
  { replace y with ((x - c) + e1) by (unfold e1; ring). pose proof (Rabs_triang (x - c) e1). lra. }
  assert (As : Rabs (s + y) <= b0 + (2 * (u * b0) + 9 * (k * u * (u * b0))) + a + (u * a + 9 / 4 * (u * (u * b0)))).
  { replace (s + y) with ((s - c - total) + total + (x + e1)) by (unfold e1; ring).
    pose proof (Rabs_triang (s - c - total + total) (x + e1)). pose proof (Rabs_triang (s - c - total) total). pose proof (Rabs_triang x e1). fold a in H1. lra. }
  assert (As1 : Rabs (s + y) <= 129 / 128 * (b0 + a)) by lra. clear As.
  assert (E2 : Rabs e2 <= 129 / 128 * (u * b0 + u * a)).
  { apply (Rle_trans _ _ _ Hs). apply (Rle_trans _ (u * (129 / 128 * (b0 + a)))); [apply Rmult_le_compat_l; lra|lra]. } clear Hs.
  assert (Ads : Rabs (s' - s) <= Rabs y + Rabs e2).
  { replace (s' - s) with (y + e2) by (unfold e2; ring). apply Rabs_triang. }
  assert (E3 : Rabs e3 <= u * a + 9 / 4 * (u * (u * b0)) + (u * (u * a) + 9 / 4 * (u * (u * (u * b0)))) + 129 / 128 * (u * (u * b0) + u * (u * a))).
  { apply (Rle_trans _ _ _ Hd). apply (Rle_trans _ (u * (a + 9 / 4 * (u * b0) + (u * a + 9 / 4 * (u * (u * b0))) + 129 / 128 * (u * b0 + u * a))));
      [apply Rmult_le_compat_l; lra|lra]. } clear Hd.
  assert (E3' : Rabs e3 <= u * a + 43 / 10 * (u * (u * b0) + u * (u * a))) by lra. clear E3.
  assert (Ady : Rabs (d - y) <= Rabs e2 + Rabs e3).
  { replace (d - y) with (e2 + e3) by (unfold e2, e3; ring). apply Rabs_triang. }
  assert (E4 : Rabs e4 <= 129 / 128 * (u * (u * b0) + u * (u * a)) + u * (u * a) + 43 / 10 * (u * (u * (u * b0)) + u * (u * (u * a)))).
  { apply (Rle_trans _ _ _ Hc'). apply (Rle_trans _ (u * (129 / 128 * (u * b0 + u * a) + (u * a + 43 / 10 * (u * (u * b0) + u * (u * a))))));
      [apply Rmult_le_compat_l; lra|lra]. } clear Hc'.
  assert (E4' : Rabs e4 <= 202 / 100 * (u * (u * b0) + u * (u * a))) by lra. clear E4.
  split.
  - replace (s' - c' - (total + x)) with ((s - c - total) + e1 + - e3 + - e4) by (unfold e1, e3, e4; ring).
    pose proof (Rabs_triang (s - c - total + e1 + - e3) (- e4)) as T1. pose proof (Rabs_triang (s - c - total + e1) (- e3)) as T2.
    pose proof (Rabs_triang (s - c - total) e1) as T3. rewrite Rabs_Ropp in T1, T2. rewrite Hb.
    replace ((2 * u + 9 * (k + 1) * (u * u)) * (b0 + a)) with
      (2 * (u * b0) + 2 * (u * a) + 9 * (k * u * (u * b0)) + 9 * (k * u * (u * a)) + 9 * (u * (u * b0)) + 9 * (u * (u * a))) by ring. lra.
  - replace c' with (e2 + e3 + e4) by (unfold e2, e3, e4; ring).
    pose proof (Rabs_triang (e2 + e3) e4) as T1. pose proof (Rabs_triang e2 e3) as T2. rewrite Hb.
    replace (9 / 4 * u * (b0 + a)) with (9 / 4 * (u * b0) + 9 / 4 * (u * a)) by ring. lra.
Qed.

Section machine.
Context {A : Type} `{Num A} (val : A -> R) (usual : A -> Prop) (u : R) (HR : rounds val usual u).

(** The steps of [kahan_sum] *)
Definition kahan_next (p : A * A) (n : A) : A * A :=
  let y := (n - snd p)%num in let t := (fst p + y)%num in (t, (t - fst p) - y)%num.

Lemma kahan_sum_steps (l : list A) : kahan_sum n0 nadd nsub l = fst (foldl kahan_next (n0, n0) l).
Proof.
  unfold kahan_sum. assert (E : forall acc, foldl (fun '(sum, c) n => let y := (n - c)%num in let t := (sum + y)%num in (t, ((t - sum) - y)%num)) acc l = foldl kahan_next acc l).
  { induction l as [|x l IH]; intros [s c]; [reflexivity|]. cbn [foldl]. rewrite IH. reflexivity. }
  rewrite E. reflexivity.
Qed.

Lemma kahan_steps (l : list A) : 0 <= u <= / 1024 -> INR (length l) * u <= / 64 -> (forall x, x ∈ l -> usual x) ->
  let p := foldl kahan_next (n0, n0) l in
  usual (fst p) /\ usual (snd p) /\
  Rabs (val (fst p) - val (snd p) - Rsum (map val l)) <= (2 * u + 9 * INR (length l) * (u * u)) * Rsum (map Rabs (map val l)) /\
  Rabs (val (snd p)) <= 9 / 4 * u * Rsum (map Rabs (map val l)).
Proof.
  intros Hu. induction l as [|x l IH] using rev_ind; intros Hn Hl.
  - destruct HR as [[Hz1 Hz2] _ _]. cbn [foldl map fst snd length]. rewrite Hz2, !Rsum_nil. split_and!; [done|done| |];
      (replace (0 - 0 - 0) with 0 by ring || idtac); rewrite Rabs_R0; lra.
  - rewrite app_length in Hn |- *. cbn [length] in Hn |- *. rewrite Nat.add_1_r, S_INR in Hn |- *.
    assert (Hn' : INR (length l) * u <= / 64) by lra.
    destruct (IH Hn' (fun y Hy => Hl y (proj2 (elem_of_app _ _ _) (or_introl Hy)))) as (U1 & U2 & HE & HC). clear IH.
    assert (Ux : usual x) by (apply Hl; apply elem_of_app; right; left).
    rewrite foldl_app. cbn [foldl]. destruct (foldl kahan_next (n0, n0) l) as [s c]. cbn [fst snd] in *.
    unfold kahan_next. cbn [fst snd]. cbv zeta.
    destruct (r_sub _ _ _ HR x c Ux U2) as [Uy Ey]. destruct (r_add _ _ _ HR s (x - c)%num U1 Uy) as [Ut Et].
    destruct (r_sub _ _ _ HR (s + (x - c))%num s Ut U1) as [Ud Ed]. destruct (r_sub _ _ _ HR ((s + (x - c)) - s)%num (x - c)%num Ud Uy) as [Uc Ec].
    split; [done|]. split; [done|].
    rewrite map_app. cbn [map]. rewrite Rsum_snoc, Rsum_abs_snoc.
    apply (kahan_step u (val s) (val c) (val x) (val (x - c)%num) (val (s + (x - c))%num) (val ((s + (x - c)) - s)%num) (val (((s + (x - c)) - s) - (x - c))%num)
             (Rsum (map val l)) (Rsum (map Rabs (map val l))) (INR (length l))); try done; [apply pos_INR|apply Rsum_abs_pos|apply Rsum_abs_le].
Qed.

Lemma kahan_within (l : list A) : not_too_many u l -> (forall x, x ∈ l -> usual x) ->
  usual (kahan_sum n0 nadd nsub l) /\ within u (9 / 2) (map val l) (val (kahan_sum n0 nadd nsub l)).
Proof.
  intros [Hu Hn] Hl. rewrite kahan_sum_steps. destruct (kahan_steps l Hu Hn Hl) as (U1 & _ & HE & HC). split; [done|].
  unfold within. set (b := Rsum (map Rabs (map val l))) in *. assert (Hb : 0 <= b) by apply Rsum_abs_pos. clearbody b.
  destruct (foldl kahan_next (n0, n0) l) as [s c]. cbn [fst snd] in *.
  replace (val s - Rsum (map val l)) with ((val s - val c - Rsum (map val l)) + val c) by ring.
  pose proof (Rabs_triang (val s - val c - Rsum (map val l)) (val c)) as T.
  assert (Q : INR (length l) * u * (u * b) <= / 64 * (u * b)) by (apply Rmult_le_compat_r; [apply Rmult_le_pos; lra|lra]).
  assert (0 <= u * b) by (apply Rmult_le_pos; lra).
  replace ((2 * u + 9 * INR (length l) * (u * u)) * b) with (2 * (u * b) + 9 * (INR (length l) * u * (u * b))) in HE by ring.
  replace (9 / 4 * u * b) with (9 / 4 * (u * b)) in HC by ring. replace (9 / 2 * u * b) with (9 / 2 * (u * b)) by ring. lra.
Qed.

(** Adding a number to zero *)
Lemma zero_plus_within x l k : 0 <= u <= / 1024 -> 0 <= k <= 64 -> usual x -> within u k l (val x) -> usual (n0 + x)%num /\ within u (k + 9 / 8) l (val (n0 + x)%num).
Proof.
  intros Hu Hk Ux Hx. destruct (r_zero _ _ _ HR) as [Uz Vz]. destruct (r_add _ _ _ HR n0 x Uz Ux) as [Us Es]. split; [done|].
  rewrite Vz, Rplus_0_l in Es. unfold within in *. pose proof (Rsum_abs_le l) as Hl. pose proof (Rsum_abs_pos l) as Hb. set (b := Rsum (map Rabs l)) in *.
  clearbody b. set (t := Rsum l) in *. clearbody t.
  assert (P : 0 <= u * b <= / 1024 * b) by (split; [apply Rmult_le_pos; lra|apply Rmult_le_compat_r; lra]).
  assert (P2 : k * (u * b) <= 64 * (u * b)) by (apply Rmult_le_compat_r; lra).
  assert (Vx : Rabs (val x) <= 9 / 8 * b).
  { replace (val x) with (t + (val x - t)) by ring. pose proof (Rabs_triang t (val x - t)). replace (k * u * b) with (k * (u * b)) in Hx by ring. lra. }
  assert (u * Rabs (val x) <= u * (9 / 8 * b)) by (apply Rmult_le_compat_l; lra).
  replace (val (n0 + x)%num - t) with ((val (n0 + x)%num - val x) + (val x - t)) by ring.
  pose proof (Rabs_triang (val (n0 + x)%num - val x) (val x - t)). replace ((k + 9 / 8) * u * b) with (k * u * b + 9 / 8 * (u * b)) by ring. lra.
Qed.

(** ** The plain sum *)
Lemma plain_steps (l : list A) : 0 <= u -> (forall x, x ∈ l -> usual x) ->
  usual (foldl nadd n0 l) /\ Rabs (val (foldl nadd n0 l) - Rsum (map val l)) <= ((1 + u) ^ length l - 1) * Rsum (map Rabs (map val l)).
Proof.
  intros Hu. induction l as [|x l IH] using rev_ind; intros Hl.
  - destruct HR as [[Hz1 Hz2] _ _]. cbn [foldl map length Rpow_def.pow]. rewrite Hz2, !Rsum_nil. split; [done|]. replace (0 - 0) with 0 by ring. rewrite Rabs_R0. lra.
  - destruct (IH (fun y Hy => Hl y (proj2 (elem_of_app _ _ _) (or_introl Hy)))) as (U1 & HE). clear IH.
    assert (Ux : usual x) by (apply Hl; apply elem_of_app; right; left).
    rewrite foldl_app. cbn [foldl]. destruct (r_add _ _ _ HR (foldl nadd n0 l) x U1 Ux) as [Us Es]. split; [done|].
    rewrite app_length. cbn [length]. rewrite Nat.add_1_r. cbn [Rpow_def.pow]. rewrite map_app. cbn [map]. rewrite Rsum_snoc, Rsum_abs_snoc.
    pose proof (Rsum_abs_le (map val l)) as Hle. pose proof (Rsum_abs_pos (map val l)) as Hb.
    set (b := Rsum (map Rabs (map val l))) in *. set (t := Rsum (map val l)) in *. set (s := val (foldl nadd n0 l)) in *. set (a := Rabs (val x)).
    set (s' := val (foldl nadd n0 l + x)%num) in *. clearbody b t s s'. assert (Ha : 0 <= a) by apply Rabs_pos.
    assert (Hp : 1 <= (1 + u) ^ length l) by (apply pow_R1_Rle; lra). set (p := (1 + u) ^ length l) in *. clearbody p.
    assert (Hsx : Rabs (s + val x) <= p * b + a).
    { replace (s + val x) with ((s - t) + t + val x) by ring. pose proof (Rabs_triang (s - t + t) (val x)). pose proof (Rabs_triang (s - t) t). unfold a. lra. }
    assert (Q : u * Rabs (s + val x) <= u * (p * b + a)) by (apply Rmult_le_compat_l; lra).
    replace (s' - (t + val x)) with ((s' - (s + val x)) + (s - t)) by ring. pose proof (Rabs_triang (s' - (s + val x)) (s - t)).
    assert (0 <= p * a - a) by (replace (p * a - a) with ((p - 1) * a) by ring; apply Rmult_le_pos; lra).
    assert (0 <= u * (p * a - a)) by (apply Rmult_le_pos; lra). lra.
Qed.

Lemma pow_small n : 0 <= u -> INR n * u <= 1 -> (1 + u) ^ n - 1 <= 2 * INR n * u.
Proof.
  intros Hu Hn.
  assert (G : forall m, (m <= n)%nat -> (1 + u) ^ m <= 1 + INR m * u + (INR m * u) * (INR m * u)).
  { induction m as [|m IH]; intros Hm; [cbn; lra|]. specialize (IH ltac:(lia)). cbn [Rpow_def.pow]. rewrite S_INR. pose proof (pos_INR m) as Hp.
    assert (Hmu : INR m * u <= 1). { apply (Rle_trans _ (INR n * u)); [apply Rmult_le_compat_r; [done|apply le_INR; lia]|done]. }
    assert (H0 : 0 <= INR m * u) by (apply Rmult_le_pos; lra).
    assert ((1 + u) * (1 + u) ^ m <= (1 + u) * (1 + INR m * u + (INR m * u) * (INR m * u))) by (apply Rmult_le_compat_l; lra).
    assert (u * ((INR m * u) * (INR m * u)) <= u * (INR m * u)) by (apply Rmult_le_compat_l; nra).
    nra. }
  specialize (G n (le_n _)). pose proof (pos_INR n). assert (0 <= INR n * u) by (apply Rmult_le_pos; lra). nra.
Qed.
End machine.
