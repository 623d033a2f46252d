From Verif Require Export Spec_Fft Proof_Convolve.
From stdpp Require Import list_numbers.
Local Open Scope R_scope.

Notation C := (R * R)%type.
Definition csub' (x y : C) : C := (fst x - fst y, snd x - snd y).
Definition copp' (x : C) : C := (- fst x, - snd x).

Lemma C_ring : ring_theory (0, 0) (1, 0) (cadd (A:=R)) cmul csub' copp' eq.
Proof.
  split; intros; unfold cadd, cmul, csub', copp'; repeat match goal with x : C |- _ => destruct x end; cbn; f_equal; ring.
Qed.
Add Ring Cring : C_ring.

Lemma cmul_integral (x y : C) : cmul x y = (0, 0) -> x = (0, 0) \/ y = (0, 0).
Proof.
  destruct x as [a b], y as [c d]. unfold cmul. cbn. intros E. injection E as E1 E2.
  assert (Hn : (a * a + b * b) * (c * c + d * d) = 0).
  { replace ((a * a + b * b) * (c * c + d * d)) with ((a * c - b * d) * (a * c - b * d) + (a * d + b * c) * (a * d + b * c)) by ring. rewrite E1, E2. ring. }
  apply Rmult_integral in Hn as [Hn|Hn].
  - left. f_equal; nra.
  - right. f_equal; nra.
Qed.

(** Sums *)
Definition csm (n : nat) (f : nat -> C) : C := series (0, 0) cadd n f.
Lemma csm_0 f : csm 0 f = (0, 0). Proof. done. Qed.
Lemma csm_S n f : csm (S n) f = cadd (csm n f) (f n).
Proof. unfold csm, series. by rewrite seq_S, map_app, foldl_app. Qed.
Lemma csm_ext n f g : (forall i, (i < n)%nat -> f i = g i) -> csm n f = csm n g.
Proof. intros E. unfold csm, series. f_equal. apply map_ext_in. intros i Hi%in_seq. apply E. lia. Qed.
Lemma csm_add n f g : csm n (fun i => cadd (f i) (g i)) = cadd (csm n f) (csm n g).
Proof. induction n as [|n IH]; [rewrite !csm_0; ring|]. rewrite !csm_S, IH. ring. Qed.
Lemma csm_mul_l n a f : csm n (fun i => cmul a (f i)) = cmul a (csm n f).
Proof. induction n as [|n IH]; [rewrite !csm_0; ring|]. rewrite !csm_S, IH. ring. Qed.
Lemma csm_mul_r n a f : csm n (fun i => cmul (f i) a) = cmul (csm n f) a.
Proof. induction n as [|n IH]; [rewrite !csm_0; ring|]. rewrite !csm_S, IH. ring. Qed.
Lemma csm_zero n : csm n (fun _ => (0, 0)) = (0, 0).
Proof. induction n as [|n IH]; [done|]. rewrite csm_S, IH. ring. Qed.
Lemma csm_swap n m (f : nat -> nat -> C) : csm n (fun i => csm m (fun j => f i j)) = csm m (fun j => csm n (fun i => f i j)).
Proof.
  induction n as [|n IH]; [rewrite csm_0; symmetry; apply csm_zero|]. rewrite csm_S, IH, <- csm_add. apply csm_ext. intros j Hj. by rewrite csm_S.
Qed.
(** Only one term counts *)
Lemma csm_single n k f : (k < n)%nat -> (forall i, (i < n)%nat -> i <> k -> f i = (0, 0)) -> csm n f = f k.
Proof.
  intros Hk Hf. induction n as [|n IH]; [lia|]. rewrite csm_S. destruct (decide (k = n)) as [->|Hn].
  - rewrite (csm_ext n f (fun _ => (0, 0))), csm_zero; [ring|]. intros i Hi. apply Hf; lia.
  - rewrite IH by (lia || (intros; apply Hf; lia)). rewrite (Hf n) by lia. ring.
Qed.
Lemma csm_split n m f : csm (n + m) f = cadd (csm n f) (csm m (fun i => f (n + i)%nat)).
Proof.
  induction m as [|m IH]; [rewrite Nat.add_0_r, csm_0; ring|]. rewrite Nat.add_succ_r, !csm_S, IH. ring.
Qed.
Lemma csm_const n a : csm n (fun _ => a) = cmul (INR n, 0) a.
Proof. induction n as [|n IH]; [rewrite csm_0; cbn; ring|]. rewrite csm_S, IH, S_INR. destruct a as [x y]. unfold cmul, cadd; cbn. f_equal; ring. Qed.

(** The roots of unity *)
Lemma turn_0 n : turn n 0 = (1, 0).
Proof. unfold turn. rewrite Rmult_0_r. unfold Rdiv. rewrite Rmult_0_l, cos_0, sin_0. done. Qed.
Lemma turn_add n a b : turn n (a + b) = cmul (turn n a) (turn n b).
Proof.
  unfold turn, cmul. cbn. rewrite plus_IZR. replace (2 * PI * (IZR a + IZR b) / INR n) with (2 * PI * IZR a / INR n + 2 * PI * IZR b / INR n) by (unfold Rdiv; ring).
  rewrite cos_plus, sin_plus. f_equal; ring.
Qed.
Lemma INR_pos n : (0 < n)%nat -> 0 < INR n.
Proof. intros. apply lt_0_INR. done. Qed.
Lemma turn_n_nat n k : (0 < n)%nat -> turn n (Z.of_nat k * Z.of_nat n) = (1, 0).
Proof.
  intros Hn. pose proof (INR_pos n Hn). unfold turn. rewrite mult_IZR, <- !INR_IZR_INZ.
  replace (2 * PI * (INR k * INR n) / INR n) with (0 + 2 * INR k * PI) by (field; lra).
  rewrite cos_period, sin_period, cos_0, sin_0. done.
Qed.
Lemma turn_n n k : (0 < n)%nat -> turn n (k * Z.of_nat n) = (1, 0).
Proof.
  intros Hn. destruct (Z_le_gt_dec 0 k) as [Hk|Hk].
  - rewrite <- (Z2Nat.id k) by done. by apply turn_n_nat.
  - assert (E : cmul (turn n (k * Z.of_nat n)) (turn n (Z.of_nat (Z.to_nat (- k)) * Z.of_nat n)) = (1, 0)).
    { rewrite <- turn_add, Z2Nat.id by lia. replace (k * Z.of_nat n + - k * Z.of_nat n)%Z with 0%Z by lia. apply turn_0. }
    rewrite turn_n_nat in E by done. rewrite <- E. ring.
Qed.
Lemma turn_period n a k : (0 < n)%nat -> turn n (a + k * Z.of_nat n) = turn n a.
Proof. intros Hn. rewrite turn_add, turn_n by done. ring. Qed.
Lemma turn_mod n a : (0 < n)%nat -> turn n (a mod Z.of_nat n) = turn n a.
Proof.
  intros Hn. rewrite (Z.div_mod a (Z.of_nat n)) at 2 by lia. replace (Z.of_nat n * (a / Z.of_nat n) + a mod Z.of_nat n)%Z with (a mod Z.of_nat n + a / Z.of_nat n * Z.of_nat n)%Z by lia.
  by rewrite turn_period.
Qed.
Lemma turn_not_1 n a : (0 < n)%nat -> (0 < a < Z.of_nat n)%Z -> turn n a <> (1, 0).
Proof.
  intros Hn [Ha Hb] E. pose proof (INR_pos n Hn) as Hp. unfold turn in E. injection E as E _.
  set (x := 2 * PI * IZR a / INR n) in *. pose proof PI_RGT_0 as Hpi.
  assert (Hx : 0 < x < 2 * PI).
  { apply IZR_lt in Ha, Hb. rewrite <- INR_IZR_INZ in Hb. unfold x. split.
    - apply Rdiv_lt_0_compat; [|done]. nra.
    - apply (Rmult_lt_reg_r (INR n)); [done|]. unfold Rdiv. rewrite Rmult_assoc, Rinv_l by lra. rewrite Rmult_1_r. nra. }
  assert (Hs : sin (x / 2) = 0).
  { pose proof (cos_2a_sin (x / 2)) as H2. replace (2 * (x / 2)) with x in H2 by lra. rewrite E in H2. nra. }
  pose proof (sin_gt_0 (x / 2) ltac:(lra) ltac:(lra)). lra.
Qed.
Lemma turn_1_iff n a : (0 < n)%nat -> turn n a = (1, 0) <-> (a mod Z.of_nat n = 0)%Z.
Proof.
  intros Hn. rewrite <- turn_mod by done. pose proof (Z.mod_pos_bound a (Z.of_nat n) ltac:(lia)). split.
  - intros E. destruct (Z.eq_dec (a mod Z.of_nat n)%Z 0%Z) as [|Hne]; [done|]. exfalso. apply (turn_not_1 n (a mod Z.of_nat n)%Z); [done | lia | done].
  - intros ->. apply turn_0.
Qed.

(** The sum over a whole circle *)
Lemma geometric n (k : Z) m : cmul (csub' (turn n k) (1, 0)) (csm m (fun j => turn n (Z.of_nat j * k))) = csub' (turn n (Z.of_nat m * k)) (1, 0).
Proof.
  induction m as [|m IH].
  - rewrite csm_0, Z.mul_0_l, turn_0. unfold csub'; cbn. ring_simplify. unfold cmul. cbn. f_equal; ring.
  - rewrite csm_S. replace (Z.of_nat (S m) * k)%Z with (Z.of_nat m * k + k)%Z by lia. rewrite turn_add.
    transitivity (cadd (csub' (turn n (Z.of_nat m * k)) (1, 0)) (cmul (csub' (turn n k) (1, 0)) (turn n (Z.of_nat m * k)))); [rewrite <- IH; ring|ring].
Qed.
Lemma roots_sum n k : (0 < n)%nat -> csm n (fun j => turn n (Z.of_nat j * k)) = if (k mod Z.of_nat n =? 0)%Z then (INR n, 0) else (0, 0).
Proof.
  intros Hn. destruct (Z.eqb_spec (k mod Z.of_nat n) 0) as [E|E].
  - rewrite (csm_ext _ _ (fun _ => (1, 0))).
    + rewrite csm_const. unfold cmul; cbn. f_equal; ring.
    + intros j Hj. apply turn_1_iff; [done|]. apply Z.mod_divide in E as [q ->]; [|lia]. rewrite Z.mul_assoc. apply Z.mod_mul. lia.
  - pose proof (geometric n k n) as G. replace (turn n (Z.of_nat n * k)) with ((1, 0) : C) in G by (rewrite Z.mul_comm, turn_n; done).
    replace (csub' (1, 0) (1, 0)) with ((0, 0) : C) in G by (unfold csub'; cbn; f_equal; ring).
    apply cmul_integral in G as [G|G]; [|done]. exfalso. apply E. apply turn_1_iff; [done|].
    destruct (turn n k) as [x y]. unfold csub' in G; cbn in G. injection G as G1 G2. f_equal; lra.
Qed.

(** The points of a list, taken around *)
Notation at_ := (around ((0, 0) : C)).
Lemma at_nat (c : list C) j : (j < length c)%nat -> at_ c (Z.of_nat j) = default (0, 0) (c !! j).
Proof. intros Hj. unfold around. rewrite circular_small by lia. by rewrite Nat2Z.id. Qed.
Lemma at_period (c : list C) z k : at_ c (z + k * Z.of_nat (length c)) = at_ c z.
Proof. unfold around. by rewrite circular_add. Qed.

Lemma dft_length s c : length (dft s c) = length c.
Proof. unfold dft. by rewrite map_length, seq_length. Qed.
Lemma dft_lookup s c k : (k < length c)%nat ->
  dft s c !! k = Some (csm (length c) (fun j => cmul (default (0, 0) (c !! j)) (turn (length c) (s * (Z.of_nat j * Z.of_nat k))))).
Proof. intros Hk. unfold dft. change (map ?g ?l) with (g <$> l). by rewrite list_lookup_fmap, lookup_seq_lt. Qed.
Lemma dft_nil s : dft s [] = []. Proof. done. Qed.

(** The spectrum at any integer frequency *)
Definition spectrum (s : Z) (c : list C) (k : Z) : C := csm (length c) (fun j => cmul (at_ c (Z.of_nat j)) (turn (length c) (s * (Z.of_nat j * k)))).
Lemma dft_at s c k : (k < length c)%nat -> dft s c !! k = Some (spectrum s c (Z.of_nat k)).
Proof. intros Hk. rewrite dft_lookup by done. f_equal. apply csm_ext. intros j Hj. by rewrite at_nat. Qed.
Lemma spectrum_period s c k z : (0 < length c)%nat -> spectrum s c (k + z * Z.of_nat (length c)) = spectrum s c k.
Proof.
  intros Hn. apply csm_ext. intros j Hj. f_equal. rewrite <- (turn_period _ (s * (Z.of_nat j * k)) (s * (Z.of_nat j * z)) Hn). f_equal. lia.
Qed.
Lemma dft_around s c z : (0 < length c)%nat -> at_ (dft s c) z = spectrum s c z.
Proof.
  intros Hn. unfold around. rewrite dft_length, dft_at by (by apply circular_lt). change (default ?aa (Some ?bb)) with bb. unfold circular.
  rewrite Z2Nat.id by (apply Z.mod_pos_bound; lia).
  rewrite (Z.div_mod z (Z.of_nat (length c))) at 2 by lia.
  replace (Z.of_nat (length c) * (z / Z.of_nat (length c)) + z mod Z.of_nat (length c))%Z with (z mod Z.of_nat (length c) + z / Z.of_nat (length c) * Z.of_nat (length c))%Z by lia.
  by rewrite spectrum_period.
Qed.

(** C31: the two transforms undo each other up to the factor [n]. *)
Theorem dft_dft s s' c : (s = 1 \/ s = -1)%Z -> s' = (- s)%Z -> dft s' (dft s c) = map (fun x => cmul (INR (length c), 0) x) c.
Proof.
  intros Hs ->. apply list_eq. intros i. change (map ?g ?l) with (g <$> l). rewrite list_lookup_fmap.
  destruct (decide (i < length c)%nat) as [Hi|Hi]; [|rewrite !lookup_ge_None_2; [done | lia | rewrite !dft_length; lia]].
  rewrite dft_lookup by (by rewrite dft_length). rewrite dft_length. set (n := length c) in *. assert (Hn : (0 < n)%nat) by lia.
  destruct (lookup_lt_is_Some_2 c i Hi) as [x Hx]. rewrite Hx. cbn [fmap option_fmap option_map]. f_equal.
  transitivity (csm n (fun k => csm n (fun j => cmul (default (0, 0) (c !! j)) (turn n (Z.of_nat k * (s * (Z.of_nat j - Z.of_nat i))))))).
  { apply csm_ext. intros k Hk. rewrite dft_lookup by done. change (default ?aa (Some ?bb)) with bb. fold n. rewrite <- csm_mul_r. apply csm_ext. intros j Hj.
    transitivity (cmul (default (0, 0) (c !! j)) (cmul (turn n (s * (Z.of_nat j * Z.of_nat k))) (turn n (- s * (Z.of_nat k * Z.of_nat i))))); [cbn; ring|].
    rewrite <- turn_add. do 2 f_equal. lia. }
  rewrite csm_swap.
  transitivity (csm n (fun j => cmul (default (0, 0) (c !! j)) (if (j =? i)%nat then (INR n, 0) else (0, 0)))).
  { apply csm_ext. intros j Hj. rewrite csm_mul_l. f_equal. rewrite roots_sum by done.
    assert (E : ((s * (Z.of_nat j - Z.of_nat i)) mod Z.of_nat n =? 0)%Z = (j =? i)%nat); [|by rewrite E].
    destruct (Nat.eqb_spec j i) as [->|Hne].
    - rewrite Z.sub_diag, Z.mul_0_r, Z.mod_0_l by lia. done.
    - apply Z.eqb_neq. intros Hm. apply Z.mod_divide in Hm as [q Hq]; [|lia].
      assert (q = 0 \/ q <= -1 \/ 1 <= q)%Z as [->|[?|?]] by lia; destruct Hs as [->| ->]; nia. }
  rewrite (csm_single n i); [|done|].
  - rewrite Nat.eqb_refl, Hx. change (default ?aa (Some ?bb)) with bb. ring.
  - intros j Hj Hne. apply Nat.eqb_neq in Hne. rewrite Hne. ring.
Qed.

(** A sum over a whole period may begin anywhere. *)
Lemma csm_shift_1 n (g : Z -> C) : g (Z.of_nat n) = g 0%Z -> csm n (fun i => g (Z.of_nat i + 1)%Z) = csm n (fun i => g (Z.of_nat i)).
Proof.
  intros E. assert (K : forall m, cadd (csm m (fun i => g (Z.of_nat i + 1)%Z)) (g 0%Z) = cadd (csm m (fun i => g (Z.of_nat i))) (g (Z.of_nat m))).
  { induction m as [|m IH]; [done|]. rewrite !csm_S. replace (Z.of_nat (S m)) with (Z.of_nat m + 1)%Z by lia.
    transitivity (cadd (cadd (csm m (fun i => g (Z.of_nat i + 1)%Z)) (g 0%Z)) (g (Z.of_nat m + 1)%Z)); [ring|]. rewrite IH. ring. }
  specialize (K n). rewrite E in K.
  transitivity (csub' (cadd (csm n (fun i => g (Z.of_nat i + 1)%Z)) (g 0%Z)) (g 0%Z)); [ring|]. rewrite K. ring.
Qed.
Lemma csm_shift_nat n (g : Z -> C) d : (forall z, g (z + Z.of_nat n)%Z = g z) -> csm n (fun i => g (Z.of_nat i + Z.of_nat d)%Z) = csm n (fun i => g (Z.of_nat i)).
Proof.
  intros Hg. induction d as [|d IH].
  - apply csm_ext. intros i _. f_equal. lia.
  - rewrite <- IH. rewrite <- (csm_shift_1 n (fun z => g (z + Z.of_nat d)%Z)).
    + apply csm_ext. intros i _. f_equal. lia.
    + rewrite <- (Hg (0 + Z.of_nat d)%Z). f_equal. lia.
Qed.
Lemma csm_shift n (g : Z -> C) d : (forall z, g (z + Z.of_nat n)%Z = g z) -> csm n (fun i => g (Z.of_nat i + d)%Z) = csm n (fun i => g (Z.of_nat i)).
Proof.
  intros Hg. destruct (Z_le_gt_dec 0 d) as [Hd|Hd].
  - rewrite <- (Z2Nat.id d) by done. by apply csm_shift_nat.
  - pose proof (csm_shift_nat n (fun z => g (z + d)%Z) (Z.to_nat (- d))) as E. rewrite <- E.
    + apply csm_ext. intros i _. f_equal. lia.
    + intros z. replace (z + Z.of_nat n + d)%Z with (z + d + Z.of_nat n)%Z by lia. apply Hg.
Qed.

Lemma cconv_lookup shift (x h : list C) i : (i < length x)%nat ->
  circular_convolution (0, 0) cadd cmul shift x h !! i =
  Some (csm (length h) (fun k => cmul (at_ x (Z.of_nat i + Z.of_nat shift - 1 - Z.of_nat k)) (default (0, 0) (h !! k)))).
Proof. apply circular_convolution_lookup. Qed.

(** The convolution theorem: the transform of a circular convolution is the product of the transforms. *)
Theorem convolution_theorem s (x h : list C) : (length h <= length x)%nat ->
  dft s (circular_convolution (0, 0) cadd cmul 1 x h) = zip_with cmul (dft s x) (dft s (h ++ replicate (length x - length h) (0, 0))).
Proof.
  intros Hl. set (n := length x) in *. set (h' := h ++ replicate (n - length h) (0, 0)).
  assert (Hh' : length h' = n) by (subst h'; rewrite app_length, replicate_length; lia).
  apply list_eq. intros k. rewrite lookup_zip_with.
  destruct (decide (k < n)%nat) as [Hk|Hk].
  2:{ rewrite !lookup_ge_None_2; try done; rewrite ?dft_length, ?circular_convolution_length; lia. }
  rewrite !dft_lookup by (rewrite ?circular_convolution_length; lia). rewrite circular_convolution_length, Hh'. fold n. cbn [mbind option_bind fmap option_fmap option_map].
  f_equal.
  transitivity (csm n (fun i => csm (length h) (fun j => cmul (default (0, 0) (h !! j)) (cmul (at_ x (Z.of_nat i - Z.of_nat j)) (turn n (s * (Z.of_nat i * Z.of_nat k))))))).
  { apply csm_ext. intros i Hi. rewrite cconv_lookup by done. change (default ?aa (Some ?bb)) with bb. rewrite <- csm_mul_r. apply csm_ext. intros j Hj.
    replace (Z.of_nat i + Z.of_nat 1 - 1 - Z.of_nat j)%Z with (Z.of_nat i - Z.of_nat j)%Z by lia. cbn. ring. }
  rewrite csm_swap.
  set (X := csm n (fun i => cmul (at_ x (Z.of_nat i)) (turn n (s * (Z.of_nat i * Z.of_nat k))))).
  transitivity (csm (length h) (fun j => cmul X (cmul (default (0, 0) (h !! j)) (turn n (s * (Z.of_nat j * Z.of_nat k)))))).
  { apply csm_ext. intros j Hj. rewrite csm_mul_l.
    transitivity (cmul (default (0, 0) (h !! j)) (cmul X (turn n (s * (Z.of_nat j * Z.of_nat k))))); [f_equal|cbn; ring].
    unfold X. rewrite <- (csm_shift n (fun z => cmul (at_ x z) (turn n (s * (z * Z.of_nat k)))) (- Z.of_nat j)).
    - rewrite <- csm_mul_r. apply csm_ext. intros i Hi. replace (Z.of_nat i + - Z.of_nat j)%Z with (Z.of_nat i - Z.of_nat j)%Z by lia.
      transitivity (cmul (at_ x (Z.of_nat i - Z.of_nat j)) (cmul (turn n (s * ((Z.of_nat i - Z.of_nat j) * Z.of_nat k))) (turn n (s * (Z.of_nat j * Z.of_nat k)))));
        [|cbn; ring]. rewrite <- turn_add. do 2 f_equal. lia.
    - intros z. f_equal.
      + rewrite <- (at_period x z 1). f_equal. fold n. lia.
      + rewrite <- (turn_period n (s * (z * Z.of_nat k)) (s * Z.of_nat k)) by lia. f_equal. lia. }
  rewrite csm_mul_l. f_equal.
  - apply csm_ext. intros i Hi. by rewrite at_nat.
  - replace (csm n (fun j => cmul (default (0, 0) (h' !! j)) (turn n (s * (Z.of_nat j * Z.of_nat k)))))
      with (csm (length h + (n - length h)) (fun j => cmul (default (0, 0) (h' !! j)) (turn n (s * (Z.of_nat j * Z.of_nat k))))) by (f_equal; lia).
    rewrite csm_split.
    rewrite (csm_ext (n - length h) _ (fun _ => (0, 0))), csm_zero.
    + transitivity (csm (length h) (fun j => cmul (default (0, 0) (h' !! j)) (turn n (s * (Z.of_nat j * Z.of_nat k))))).
      * apply csm_ext. intros j Hj. subst h'. by rewrite lookup_app_l.
      * cbn. ring.
    + intros j Hj. subst h'. rewrite lookup_app_r by lia. rewrite lookup_replicate_2 by lia. change (default ?aa (Some ?bb)) with bb. cbn. ring.
Qed.
