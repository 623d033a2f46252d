(** Theorems for C73: rounding errors of [cum_sum], [diff_with_start] and of the one after the other *)
From Verif Require Import Proof_Sum Proof_Prec Proof_PrecOps Proof_Round Spec_Round Model_Double Props_Stats Props_Prec Props_Round.
From stdpp Require Import tactics.
From Coq Require Import Lia.
Local Open Scope R_scope.

Section machine.
Context {A : Type} `{Num A} (val : A -> R) (usual : A -> Prop) (u : R) (HR : rounds val usual u) (Hu : 0 <= u).

(** The running sums: number [i] went through [i] additions at most *)
Lemma running_near (l l' : list A) : running nadd l l' -> (forall x, x ∈ l -> usual x) ->
  forall i, (i < length l)%nat -> exists x, l' !! i = Some x /\ near val usual u i (map val (take (i + 1)%nat l)) x.
Proof.
  intros (L & H0 & Hr) Hx i. induction i as [|i IH]; intros Hi.
  - destruct (lookup_lt_is_Some_2 l 0 Hi) as [y Ey]. exists y. split; [by rewrite H0|].
    destruct l as [|z l]; [done|]. cbn in Ey. injection Ey as ->. cbn [Nat.add take]. rewrite take_0. apply near_one. apply Hx. left.
  - destruct (IH ltac:(lia)) as (x & Ex & N). destruct (lookup_lt_is_Some_2 l (i + 1)%nat) as [y Ey]; [lia|].
    pose proof (Hr i x y Ex Ey) as E. rewrite Nat.add_1_r in E, Ey. exists (y + x)%num. split; [exact E|].
    rewrite Nat.add_1_r, (take_S_r l (Datatypes.S i) y Ey), map_app. cbn [map]. rewrite Nat.add_1_r in N.
    apply (near_perm val usual u _ ([val y] ++ map val (take (Datatypes.S i) l))); [apply Permutation_app_comm|].
    apply (near_add val usual u HR Hu); [|exact N].
    apply (near_le val usual u Hu 0); [lia|]. apply near_one. apply Hx. by apply elem_of_list_lookup_2 with (Datatypes.S i).
Qed.
End machine.

(** [cum_sum]: element [i] is the sum of the first numbers, up to [2 i] rounding units. *)
Theorem C73_cum_sum : forall {A} `{Num A} (val : A -> R) usual u, rounds val usual u -> 0 <= u -> forall (v : dvec A) l,
  reals v l -> INR (length l) * u <= 1 -> (forall x, x ∈ l -> usual x) ->
  exists v' l', cum_sum v = Done v' /\ reals v' l' /\ length l' = length l /\
    forall i, (i < length l)%nat -> exists x, l' !! i = Some x /\ usual x /\ within u (2 * INR i) (map val (take (i + 1)%nat l)) (val x).
Proof.
  intros A HN val usual u HR Hu v l Hv Hk Hx. destruct (cum_sum_real v l Hv) as (v' & l' & E & Hv' & _ & _ & Hr).
  exists v', l'. split; [exact E|]. split; [exact Hv'|]. split; [apply Hr|]. intros i Hi.
  destruct (running_near val usual u HR Hu l l' Hr Hx i Hi) as (x & Ex & N). exists x. split; [exact Ex|]. split; [apply N|].
  apply (near_within val usual u Hu i _ x); [|exact N].
  refine (Rle_trans _ _ _ _ Hk). apply Rmult_le_compat_r; [exact Hu|]. apply le_INR. lia.
Qed.
Print Assumptions C73_cum_sum.
(** Of complex vectors, for the real and for the imaginary parts *)
Theorem C73_cum_sum_complex : forall {A} `{Num A} (val : A -> R) usual u, rounds val usual u -> 0 <= u -> forall (v : dvec A) c,
  cplx v c -> INR (length c) * u <= 1 -> (forall x, x ∈ c -> usual (fst x) /\ usual (snd x)) ->
  exists v' c', cum_sum v = Done v' /\ cplx v' c' /\ length c' = length c /\
    forall i, (i < length c)%nat -> exists x, c' !! i = Some x /\
      within u (2 * INR i) (map (fun y => val (fst y)) (take (i + 1)%nat c)) (val (fst x)) /\
      within u (2 * INR i) (map (fun y => val (snd y)) (take (i + 1)%nat c)) (val (snd x)).
Proof.
  intros A HN val usual u HR Hu v c Hv Hk Hx. destruct (cum_sum_cplx v c Hv) as (v' & c' & E & Hv' & _ & _ & Hr).
  exists v', c'. split; [exact E|]. split; [exact Hv'|]. split; [apply Hr|]. intros i Hi.
  assert (P : forall p : A * A -> A, (forall a b, p (cadd a b) = (p a + p b)%num) -> running nadd (map p c) (map p c')).
  { intros p Hp. destruct Hr as (L & H0 & Hr). split; [by rewrite !map_length|]. split; [by rewrite !list_lookup_fmap, H0|].
    intros j x y Ea Eb. rewrite list_lookup_fmap in Ea, Eb |- *. destruct (c' !! j) as [a|] eqn:Ea'; [|done]. destruct (c !! (j + 1)%nat) as [b|] eqn:Eb'; [|done].
    injection Ea as <-. injection Eb as <-. rewrite (Hr j a b Ea' Eb'). cbn [fmap option_fmap option_map]. by rewrite Hp. }
  assert (Hk' : INR i * u <= 1).
  { refine (Rle_trans _ _ _ _ Hk). apply Rmult_le_compat_r; [exact Hu|]. apply le_INR. lia. }
  assert (G : forall p : A * A -> A, (forall a b, p (cadd a b) = (p a + p b)%num) -> (forall x, x ∈ c -> usual (p x)) -> forall x, c' !! i = Some x ->
    within u (2 * INR i) (map (fun y => val (p y)) (take (i + 1)%nat c)) (val (p x))).
  { intros p Hp Hup x Ex. destruct (running_near val usual u HR Hu _ _ (P p Hp)) with (i := i) as (y & Ey & N); [|by rewrite map_length|].
    { intros z (w & -> & Hw)%elem_of_list_fmap. by apply Hup. }
    rewrite list_lookup_fmap, Ex in Ey. injection Ey as <-. replace (map val (take (i + 1)%nat (map p c))) with (map (fun y => val (p y)) (take (i + 1)%nat c)) in N by (by rewrite firstn_map, map_map). exact (near_within val usual u Hu i _ (p x) Hk' N). }
  destruct (lookup_lt_is_Some_2 c' i) as [x Ex]; [destruct Hr as (L & _); lia|]. exists x. split; [exact Ex|].
  split; [apply (G fst); [done|by intros; apply Hx|done]|apply (G snd); [done|by intros; apply Hx|done]].
Qed.
Print Assumptions C73_cum_sum_complex.

(** [diff_with_start], and [cum_sum] after it, which gives the numbers back up to rounding *)
Section diffs.
Context {A : Type} `{Num A} (val : A -> R) (usual : A -> Prop) (u : R) (HR : rounds val usual u) (Hu : 0 <= u).

Lemma diffs_usual (l d : list A) : differences_with_start nsub l d -> (forall x, x ∈ l -> usual x) -> forall x, x ∈ d -> usual x.
Proof.
  intros (L & H0 & Hd) Hx x [[|i] Ei]%elem_of_list_lookup.
  - rewrite H0 in Ei. apply Hx. by apply elem_of_list_lookup_2 with 0%nat.
  - assert (Hi := lookup_lt_Some _ _ _ Ei). destruct (lookup_lt_is_Some_2 l i) as [a Ea]; [lia|]. destruct (lookup_lt_is_Some_2 l (i + 1)%nat) as [b Eb]; [lia|].
    pose proof (Hd i a b Ea Eb) as E. rewrite Nat.add_1_r, Ei in E. injection E as ->.
    apply (r_sub _ _ _ HR); apply Hx; eapply elem_of_list_lookup_2; eassumption.
Qed.
Lemma nth_val (l : list A) i x : l !! i = Some x -> nth i (map val l) 0 = val x.
Proof. intros E. apply nth_lookup_Some. by rewrite list_lookup_fmap, E. Qed.
Lemma diffs_near (l d : list A) : differences_with_start nsub l d -> (forall x, x ∈ l -> usual x) -> forall i, (i < length l)%nat ->
  Rabs (Rsum (map val (take (i + 1)%nat d)) - nth i (map val l) 0) <= u * way (map val l) i /\
  Rsum (map Rabs (map val (take (i + 1)%nat d))) <= (1 + u) * way (map val l) i.
Proof.
  intros (L & H0 & Hd) Hx i. induction i as [|i IH]; intros Hi.
  - destruct (lookup_lt_is_Some_2 l 0 Hi) as [y Ey]. rewrite Ey in H0. change (0 + 1)%nat with 1%nat. rewrite (take_S_r d 0 y H0), take_0. unfold way.
    rewrite (nth_val l 0 y Ey). cbn [app map seq]. unfold Rsum. cbn [foldr]. replace (val y + 0 - val y) with 0 by ring. rewrite Rabs_R0.
    pose proof (Rabs_pos (val y)). assert (0 <= u * Rabs (val y)) by (by apply Rmult_le_pos). split; lra.
  - destruct (IH ltac:(lia)) as [I1 I2]. clear IH. destruct (lookup_lt_is_Some_2 l i) as [a Ea]; [lia|]. destruct (lookup_lt_is_Some_2 l (i + 1)%nat) as [b Eb]; [lia|].
    pose proof (Hd i a b Ea Eb) as E. rewrite Nat.add_1_r in E. rewrite (Nat.add_1_r (Datatypes.S i)), (take_S_r d (Datatypes.S i) _ E).
    rewrite Nat.add_1_r in I1, I2. rewrite !map_app, !Rsum_app. unfold way in I1, I2 |- *. rewrite (seq_S i), map_app, Rsum_app. cbn [map Nat.add].
    rewrite (nth_val l i a Ea) in *. rewrite (nth_val l (i + 1) b Eb). rewrite <- (Nat.add_1_r i), (nth_val l (i + 1) b Eb).
    rewrite (Nat.add_1_r i).
    destruct (r_sub _ _ _ HR b a) as [_ W]; [eapply Hx, elem_of_list_lookup_2, Eb|eapply Hx, elem_of_list_lookup_2, Ea|].
    set (p := Rsum (map val (take (Datatypes.S i) d))) in *. set (q := Rsum (map Rabs (map val (take (Datatypes.S i) d)))) in *.
    set (s := Rabs (nth 0 (map val l) 0) + Rsum (map (fun j => Rabs (nth (j + 1) (map val l) 0 - nth j (map val l) 0)) (seq 0 i))) in *.
    replace (Rabs (nth 0 (map val l) 0) + (Rsum (map (fun j => Rabs (nth (j + 1) (map val l) 0 - nth j (map val l) 0)) (seq 0 i)) + Rsum [Rabs (val b - val a)]))
      with (s + Rabs (val b - val a)) by (unfold s, Rsum; cbn [foldr]; ring).
    clearbody p q s. unfold Rsum. cbn [foldr]. set (e := val (b - a)%num) in *. clearbody e.
    replace (p + (e + 0) - val b) with ((p - val a) + (e - (val b - val a))) by ring. pose proof (Rabs_triang (p - val a) (e - (val b - val a))).
    replace e with ((val b - val a) + (e - (val b - val a))) at 2 by ring. pose proof (Rabs_triang (val b - val a) (e - (val b - val a))). split; lra.
Qed.
End diffs.

Theorem C73_diff_cum_sum : forall {A} `{Num A} (val : A -> R) usual u, rounds val usual u -> 0 <= u -> forall (v : dvec A) l,
  reals v l -> INR (length l) * u <= 1 -> (forall x, x ∈ l -> usual x) ->
  exists v1 v2 l2, diff_with_start v = Done v1 /\ cum_sum v1 = Done v2 /\ reals v2 l2 /\ length l2 = length l /\
    forall i, (i < length l)%nat -> exists x y, l !! i = Some x /\ l2 !! i = Some y /\ usual y /\
      Rabs (val y - val x) <= INR (2 * i + 3) * u * way (map val l) i.
Proof.
  intros A HN val usual u HR Hu v l Hv Hk Hx. destruct (diff_with_start_real v l Hv) as (v1 & d & E1 & Hv1 & _ & _ & Hd).
  assert (L : length d = length l) by apply Hd.
  destruct (C73_cum_sum val usual u HR Hu v1 d Hv1) as (v2 & l2 & E2 & Hv2 & L2 & G); [by rewrite L|by apply (diffs_usual val usual u HR l d Hd)|].
  exists v1, v2, l2. split; [exact E1|]. split; [exact E2|]. split; [exact Hv2|]. split; [by rewrite L2|]. intros i Hi.
  destruct (lookup_lt_is_Some_2 l i Hi) as [x Ex]. destruct (G i) as (y & Ey & U & W); [by rewrite L|]. exists x, y. split; [exact Ex|]. split; [exact Ey|]. split; [exact U|].
  destruct (diffs_near val usual u HR Hu l d Hd Hx i Hi) as [D1 D2]. rewrite (nth_val val l i x Ex) in D1. unfold within in W.
  assert (Hik : INR i * u <= 1).
  { refine (Rle_trans _ _ _ _ Hk). apply Rmult_le_compat_r; [exact Hu|]. apply le_INR. lia. }
  assert (Hw : 0 <= way (map val l) i).
  { pose proof (Rsum_abs_pos (map val (take (i + 1) d))) as P. assert (0 < 1 + u) by lra. apply (Rmult_le_reg_l (1 + u)); [done|]. rewrite Rmult_0_r. exact (Rle_trans _ _ _ P D2). }
  pose proof (pos_INR i) as Hi0.
  assert (W' : 2 * INR i * u * Rsum (map Rabs (map val (take (i + 1) d))) <= 2 * INR i * u * ((1 + u) * way (map val l) i)).
  { apply Rmult_le_compat_l; [|exact D2]. apply Rmult_le_pos; [lra|exact Hu]. }
  assert (W2 : INR i * u * (u * way (map val l) i) <= 1 * (u * way (map val l) i)) by (apply Rmult_le_compat_r; [by apply Rmult_le_pos|exact Hik]).
  replace (INR (2 * i + 3)) with (2 * INR i + 3) by (rewrite plus_INR, mult_INR; cbn [INR]; ring).
  replace (val y - val x) with ((val y - Rsum (map val (take (i + 1) d))) + (Rsum (map val (take (i + 1) d)) - val x)) by ring.
  pose proof (Rabs_triang (val y - Rsum (map val (take (i + 1) d))) (Rsum (map val (take (i + 1) d)) - val x)).
  replace (2 * INR i * u * ((1 + u) * way (map val l) i)) with (2 * INR i * u * way (map val l) i + 2 * (INR i * u * (u * way (map val l) i))) in W' by ring.
  replace ((2 * INR i + 3) * u * way (map val l) i) with (2 * INR i * u * way (map val l) i + 3 * (u * way (map val l) i)) by ring. lra.
Qed.
Print Assumptions C73_diff_cum_sum.

Lemma f64_add_0 x : f64_usual x -> f64_round (0 + x) = x.
Proof. intros Hx. rewrite Rplus_0_l. exact (f64_round_same x Hx). Qed.
Lemma f64_zero_usual : f64_usual 0.
Proof. apply generic_format_0. Qed.

(** So [cum_sum] does not undo [diff_with_start] in f64 ... *)
Example C73_diff_cum_sum_example : let l := [- IZR (2 ^ 53); / 2] in
  (forall x, x ∈ l -> generic_format radix2 (FLT_exp (-1074) 53) x) /\ INR (length l) * / 2 ^ 53 <= 1 /\
  exists v1 v2, @diff_with_start R f64_num (double_vec l) = Done v1 /\ @cum_sum R f64_num v1 = Done v2 /\ reals v2 [- IZR (2 ^ 53); 0].
Proof.
  cbv zeta. fold big. split_and!.
  - intros x [->|[->|Hx]%elem_of_cons]%elem_of_cons; [apply f64_usual_opp, big_usual|exact half_usual|by apply elem_of_nil in Hx].
  - cbn [length INR]. pose proof f64_small_unit. lra.
  - destruct (@diff_with_start_real R f64_num _ _ (double_reals [- big; / 2])) as (v1 & d & E1 & Hv1 & _ & _ & L & D0 & D1).
    destruct (@cum_sum_real R f64_num v1 d Hv1) as (v2 & c & E2 & Hv2 & _ & _ & L2 & C0 & C1). exists v1, v2. split; [exact E1|]. split; [exact E2|].
    destruct d as [|d0 [|d1 [|]]]; try discriminate L. destruct c as [|c0 [|c1 [|]]]; try discriminate L2.
    pose proof (D1 0%nat _ _ eq_refl eq_refl) as E. cbn in D0, E. injection D0 as ->. injection E as ->.
    pose proof (C1 0%nat _ _ eq_refl eq_refl) as E. cbn in C0, E. injection C0 as ->. injection E as ->.
    replace (/ 2 - - big) with (big + / 2) in Hv2 by ring. rewrite half_absorbed in Hv2. replace (big + - big) with 0 in Hv2 by ring.
    rewrite (f64_round_same 0 f64_zero_usual) in Hv2. exact Hv2.
Qed.
(** ... and the plain sum of the same three numbers depends on where they lie in memory: at an address which is a multiple of 16, and 8 bytes behind it. *)
Theorem C73_alignment_matters : let v := double_vec [- IZR (2 ^ 53); IZR (2 ^ 53); / 2] in
  @vsum R f64_num f64x2 0 ex_set [] v = Done (/ 2) /\ @vsum R f64_num f64x2 8 ex_set [] v = Done 0.
Proof.
  cbv zeta. fold big. pose proof (f64_usual_opp big big_usual) as Hb. split.
  - transitivity (Done (f64_round (f64_round (0 + f64_round (f64_round (0 + - big) + f64_round (0 + big))) + f64_round (0 + / 2)))); [reflexivity|].
    rewrite (f64_add_0 _ Hb), (f64_add_0 _ big_usual), (f64_add_0 _ half_usual). replace (- big + big) with 0 by ring.
    rewrite (f64_round_same 0 f64_zero_usual), (f64_add_0 _ f64_zero_usual), (f64_add_0 _ half_usual). reflexivity.
  - transitivity (Done (f64_round (f64_round (0 + f64_round (f64_round (0 + big) + f64_round (0 + / 2))) + f64_round (0 + - big)))); [reflexivity|].
    rewrite (f64_add_0 _ Hb), (f64_add_0 _ big_usual), (f64_add_0 _ half_usual), half_absorbed, (f64_add_0 _ big_usual). replace (big + - big) with 0 by ring.
    rewrite (f64_round_same 0 f64_zero_usual). reflexivity.
Qed.
Print Assumptions C73_alignment_matters.
