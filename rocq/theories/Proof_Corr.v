From Verif Require Export Proof_FftR Proof_ComplexMath.
From stdpp Require Import list_numbers.
Local Open Scope nat_scope.

Lemma zero_pad_b_spare {A} (zero : A) b (v v' : dvec A) b' n o res : zero_pad_b zero b v n o = Done (v', b', res) -> still_spare b b'.
Proof.
  unfold zero_pad_b. cbv zeta. destruct (_ <=? _); [intros E; injection E as _ <- _; exact (fun _ h => h)|].
  destruct (borrow zero b _) as [t|]; [|done]. rewrite bind_Done.
  match goal with |- context [mbind ?bb ?aa] => destruct aa as [t'|]; [|done] end. rewrite bind_Done.
  destruct (trade b _ _) as [st b''] eqn:E. intros E'. injection E' as _ <- _. by eapply trade_spare.
Qed.
Lemma alloc_rest {A} (v v' : dvec A) : len v <= alloc_len v -> len v' <= alloc_len v' -> same_rest v v' -> alloc_len v' = alloc_len v.
Proof.
  unfold len, alloc_len, s_len, elems. intros H1 H2 (_ & _ & E & D). apply (f_equal length) in D. rewrite !drop_length in D. unfold elems in *. rewrite E in *. lia.
Qed.

Local Open Scope R_scope.
Local Notation C := (R * R)%type.
Local Notation conv x h := (circular_convolution (0, 0) cadd cmul 1 x h).

Lemma conj_mul (x y : C) : conjugated (cmul x y) = cmul (conjugated x) (conjugated y).
Proof. destruct x, y. unfold conjugated, cmul. cbn. f_equal; ring. Qed.
Lemma conj_add (x y : C) : conjugated (cadd x y) = cadd (conjugated x) (conjugated y).
Proof. destruct x, y. unfold conjugated, cadd. cbn. f_equal; ring. Qed.
Lemma conj_csm n f : conjugated (csm n f) = csm n (fun i => conjugated (f i)).
Proof. induction n as [|n IH]; [unfold conjugated; cbn; f_equal; ring|]. by rewrite !csm_S, conj_add, IH. Qed.
Lemma conj_turn n k : conjugated (turn n k) = turn n (- k).
Proof.
  unfold conjugated, turn. cbn. rewrite opp_IZR. replace (2 * PI * - IZR k / INR n) with (- (2 * PI * IZR k / INR n)) by (unfold Rdiv; ring).
  by rewrite cos_neg, sin_neg.
Qed.
Lemma conj_zero : conjugated (0, 0) = (0, 0). Proof. unfold conjugated. cbn. f_equal. ring. Qed.
Lemma map_default (f : C -> C) (l : list C) j : f (0, 0) = (0, 0) -> default (0, 0) (map f l !! j) = f (default (0, 0) (l !! j)).
Proof. intros E. change (map f l) with (f <$> l). rewrite list_lookup_fmap. by destruct (l !! j). Qed.
Lemma around_map (f : C -> C) (l : list C) z : f (0, 0) = (0, 0) -> around (0, 0) (map f l) z = f (around (0, 0) l z).
Proof. intros E. unfold around. rewrite map_length. by apply map_default. Qed.

Lemma conj_dft s c : map conjugated (dft s c) = dft (- s) (map conjugated c).
Proof.
  apply list_eq. intros i. change (map conjugated (dft s c)) with (conjugated <$> dft s c). rewrite list_lookup_fmap.
  destruct (decide (i < length c)%nat) as [Hi|Hi]; [|rewrite !lookup_ge_None_2; [done | rewrite dft_length, map_length; lia | rewrite dft_length; lia]].
  rewrite !dft_lookup by (by rewrite ?map_length). rewrite map_length. cbn [fmap option_fmap option_map]. f_equal. rewrite conj_csm. apply csm_ext. intros j Hj.
  rewrite conj_mul, conj_turn, map_default by apply conj_zero. do 2 f_equal. lia.
Qed.

(** The mirrored signal *)
Definition flipped (x : list C) : list C := map (fun j => around (0, 0) x (- Z.of_nat j)) (seq 0 (length x)).
Lemma flipped_length x : length (flipped x) = length x. Proof. unfold flipped. by rewrite map_length, seq_length. Qed.
Lemma flipped_lookup x j : (j < length x)%nat -> flipped x !! j = Some (around (0, 0) x (- Z.of_nat j)).
Proof. intros Hj. unfold flipped. change (map ?g ?l) with (g <$> l). by rewrite list_lookup_fmap, lookup_seq_lt. Qed.
Lemma csm_flip n (g : Z -> C) : (forall z, g (z + Z.of_nat n)%Z = g z) -> csm n (fun i => g (- Z.of_nat i)%Z) = csm n (fun i => g (Z.of_nat i)).
Proof.
  intros Hg.
  assert (K : forall m (f : nat -> C), csm m (fun i => f (m - 1 - i)%nat) = csm m f).
  { induction m as [|m IH]; intros f; [done|]. rewrite csm_S. replace (S m - 1 - m)%nat with 0%nat by lia.
    change (csm (S m) f) with (csm (1 + m) f). rewrite csm_split. rewrite <- (IH (fun i => f (1 + i)%nat)).
    rewrite (csm_ext m (fun i => f (S m - 1 - i)%nat) (fun i => f (1 + (m - 1 - i))%nat)); [|intros i Hi; f_equal; lia].
    rewrite csm_S, csm_0. ring. }
  rewrite <- (csm_shift n g 1 Hg). rewrite <- (K n (fun i => g (Z.of_nat i + 1)%Z)). apply csm_ext. intros i Hi. cbv beta.
  rewrite <- (Hg (- Z.of_nat i)%Z). f_equal. lia.
Qed.
Lemma dft_flipped s x : dft s (flipped x) = dft (- s) x.
Proof.
  apply list_eq. intros i.
  destruct (decide (i < length x)%nat) as [Hi|Hi]; [|rewrite !lookup_ge_None_2; [done | rewrite dft_length; lia | rewrite dft_length, flipped_length; lia]].
  rewrite dft_lookup, (dft_at (- s)) by (by rewrite ?flipped_length). rewrite flipped_length. f_equal. unfold spectrum.
  rewrite <- (csm_flip (length x) (fun z => cmul (around (0, 0) x z) (turn (length x) (- s * (z * Z.of_nat i))))).
  - apply csm_ext. intros j Hj. rewrite flipped_lookup by done. change (default ?aa (Some ?bb)) with bb. do 2 f_equal. lia.
  - intros z. f_equal. { by rewrite <- (at_period x z 1), Z.mul_1_l. }
    rewrite <- (turn_period (length x) (- s * (z * Z.of_nat i)) (- s * Z.of_nat i)) by lia. f_equal. lia.
Qed.

Lemma circular_correlation_conv (x y : list C) : length x = length y -> circular_correlation x y = conv x (flipped (map conjugated y)).
Proof.
  intros Hl. apply list_eq. intros i. unfold circular_correlation. change (map ?g (seq 0 (length x))) with (g <$> seq 0 (length x)) at 1. rewrite list_lookup_fmap.
  destruct (decide (i < length x)%nat) as [Hi|Hi].
  2:{ rewrite !lookup_ge_None_2; [done | | rewrite seq_length; lia]. unfold circular_convolution. rewrite map_length, seq_length. lia. }
  rewrite lookup_seq_lt, cconv_lookup by done. rewrite flipped_length, map_length. cbn [fmap option_fmap option_map]. f_equal.
  change (series (0, 0) complex_sum) with csm.
  transitivity (csm (length y) (fun k => cmul (around (0, 0) x (Z.of_nat i + Z.of_nat k)) (conjugated (around (0, 0) y (Z.of_nat k))))).
  { apply csm_ext. intros k Hk. by rewrite at_nat. }
  rewrite <- (csm_flip (length y) (fun z => cmul (around (0, 0) x (Z.of_nat i + z)) (conjugated (around (0, 0) y z)))).
  - apply csm_ext. intros k Hk. rewrite flipped_lookup by (by rewrite map_length). change (default ?aa (Some ?bb)) with bb.
    rewrite around_map by apply conj_zero. do 2 f_equal. lia.
  - intros z. rewrite <- (at_period x (Z.of_nat i + z) 1), <- (at_period y z 1). rewrite Hl. f_equal; [f_equal; lia | do 2 f_equal; lia].
Qed.

Theorem idft_product (x y : list C) : length x = length y ->
  dft 1 (zip_with cmul (dft (-1) x) (dft (-1) y)) = map (rscale (INR (length x))) (conv x y).
Proof.
  intros Hl. rewrite <- scale_nth. pose proof (convolution_theorem (-1) x y ltac:(lia)) as E. rewrite Hl, Nat.sub_diag, app_nil_r in E. rewrite <- E.
  rewrite (dft_dft (-1) 1) by (auto || done). unfold circular_convolution. by rewrite !map_length, seq_length.
Qed.
Theorem idft_conj_product (x y : list C) : length x = length y ->
  dft 1 (zip_with cmul (dft (-1) x) (map conjugated (dft (-1) y))) = map (rscale (INR (length x))) (circular_correlation x y).
Proof.
  intros Hl. rewrite circular_correlation_conv by done. rewrite conj_dft. rewrite <- dft_flipped. apply idft_product.
  by rewrite flipped_length, map_length.
Qed.

(** ** Padded signals *)
Local Notation pad N p := (padded (0, 0) Surround (Nat.div (N - length p + 1) 2) N p).
Lemma pad_lookup (p : list C) N j : (length p <= N)%nat -> (j < N)%nat ->
  default (0, 0) (pad N p !! j) = outside p (Z.of_nat j - Z.of_nat ((N - length p + 1) / 2)).
Proof.
  intros Hn Hj. unfold padded, outside, zeros. set (L := ((N - length p + 1) / 2)%nat).
  destruct (Z.of_nat j - Z.of_nat L <? 0)%Z eqn:E.
  - rewrite lookup_app_l by (rewrite replicate_length; lia). by rewrite lookup_replicate_2 by lia.
  - rewrite lookup_app_r by (rewrite replicate_length; lia). rewrite replicate_length.
    replace (Z.to_nat (Z.of_nat j - Z.of_nat L)) with (j - L)%nat by lia.
    destruct (decide (j - L < length p)%nat) as [Hk|Hk]; [by rewrite lookup_app_l|].
    rewrite lookup_app_r by lia. rewrite (lookup_ge_None_2 p) by lia. destruct (_ !! _) as [x|] eqn:El; [|done].
    apply lookup_replicate in El. destruct El as [-> _]. done.
Qed.
Lemma pad_length (p : list C) N : (length p <= N)%nat -> length (pad N p) = N.
Proof. intros Hn. unfold padded, zeros. rewrite !app_length, !replicate_length. lia. Qed.

Lemma circular_shift_small n z : (0 < n)%nat -> (- Z.of_nat n <= z < 2 * Z.of_nat n)%Z ->
  Z.of_nat (circular n z) = (if (z <? 0)%Z then z + Z.of_nat n else if (z <? Z.of_nat n)%Z then z else z - Z.of_nat n)%Z.
Proof.
  intros Hn Hz. unfold circular. rewrite Z2Nat.id by (apply Z.mod_pos_bound; lia).
  destruct (z <? 0)%Z eqn:E1; [|destruct (z <? Z.of_nat n)%Z eqn:E2].
  - rewrite <- (Z.mod_small (z + Z.of_nat n) (Z.of_nat n)) by lia. rewrite <- (Z.mul_1_l (Z.of_nat n)) at 2. by rewrite Z.mod_add by lia.
  - apply Z.mod_small. lia.
  - rewrite <- (Z.mod_small (z - Z.of_nat n) (Z.of_nat n)) by lia. replace (z - Z.of_nat n)%Z with (z + (-1) * Z.of_nat n)%Z by lia. by rewrite Z.mod_add by lia.
Qed.

Lemma pad_around (x : list C) n z : length x = n -> (0 < n)%nat -> (- (Z.of_nat n - 1) <= z <= 2 * Z.of_nat n - 2)%Z ->
  around (0, 0) (pad (2 * n - 1)%nat x) (Z.of_nat (n / 2) + z) = outside x z.
Proof.
  intros Hx Hn Hz. unfold around. rewrite pad_length by lia. 
  pose proof (circular_shift_small (2 * n - 1) (Z.of_nat (n / 2) + z) ltac:(lia)) as Hc.
  assert (HL : ((2 * n - 1 - length x + 1) / 2 = n / 2)%nat) by (f_equal; lia).
  pose proof (Nat.div_mod_eq n 2). pose proof (Nat.mod_upper_bound n 2 ltac:(lia)).
  specialize (Hc ltac:(lia)). set (i := circular (2 * n - 1) (Z.of_nat (n / 2) + z)) in *. clearbody i.
  rewrite pad_lookup; [| lia | destruct (_ <? 0)%Z eqn:E1 in Hc; [lia|]; destruct (_ <? _)%Z eqn:E2 in Hc; lia]. rewrite HL. unfold outside.
  destruct (Z.of_nat (n / 2) + z <? 0)%Z eqn:E1; [|destruct (Z.of_nat (n / 2) + z <? Z.of_nat (2 * n - 1))%Z eqn:E2].
  - rewrite Hc. destruct (z <? 0)%Z eqn:E3; [|lia]. match goal with |- context [(?aa <? 0)%Z] => destruct (aa <? 0)%Z eqn:E4 end; [reflexivity|]. by rewrite lookup_ge_None_2 by lia.
  - rewrite Hc. by replace (Z.of_nat (n / 2) + z - Z.of_nat (n / 2))%Z with z by lia.
  - rewrite Hc. destruct (z <? 0)%Z eqn:E3; [lia|]. match goal with |- context [(?aa <? 0)%Z] => destruct (aa <? 0)%Z eqn:E4 end; [|lia]. by rewrite lookup_ge_None_2 by lia.
Qed.

Lemma outside_nat (x : list C) j : outside x (Z.of_nat j) = default (0, 0) (x !! j).
Proof. unfold outside. destruct (_ <? 0)%Z eqn:E; [lia|]. by rewrite Nat2Z.id. Qed.

Theorem padded_correlation (x y : list C) n X : length x = n -> length y = n -> (0 < n)%nat ->
  rotated_by ((2 * n - 1) / 2) (circular_correlation (pad (2 * n - 1)%nat x) (pad (2 * n - 1)%nat y)) X -> X = cross_correlation x y.
Proof.
  intros Hx Hy Hn [HlX Hrot]. set (N := (2 * n - 1)%nat) in *. set (x' := pad N x) in *. set (y' := pad N y) in *.
  assert (Hlx : length x' = N) by (apply pad_length; lia). assert (Hly : length y' = N) by (apply pad_length; lia).
  assert (HlC : length (circular_correlation x' y') = N) by (unfold circular_correlation; rewrite map_length, seq_length; done).
  rewrite HlC in *. assert (HN2 : (N / 2 = n - 1)%nat). { symmetry. apply Nat.div_unique with 1%nat; lia. }
  pose proof (Nat.div_mod_eq n 2). pose proof (Nat.mod_upper_bound n 2 ltac:(lia)).
  apply list_eq. intros i. unfold cross_correlation. change (map ?g (seq 0 (2 * length x - 1))) with (g <$> seq 0 (2 * length x - 1)). rewrite list_lookup_fmap, Hx. fold N.
  destruct (decide (i < N)%nat) as [Hi|Hi]; [|rewrite !lookup_ge_None_2; [done | rewrite seq_length; lia | lia]].
  rewrite lookup_seq_lt by done. cbn [fmap option_fmap option_map].
  assert (Hj : exists j, (j < N)%nat /\ i = ((j + N / 2) mod N)%nat /\ exists q, Z.of_nat j = (Z.of_nat i - (Z.of_nat n - 1) + q * Z.of_nat N)%Z).
  { rewrite HN2. destruct (decide (i < n - 1)%nat) as [Hs|Hs].
    - exists (i + n)%nat. split; [lia|]. split; [|exists 1%Z; lia]. replace (i + n + (n - 1))%nat with (i + 1 * N)%nat by lia.
      rewrite Nat.mod_add by lia. by rewrite Nat.mod_small.
    - exists (i - (n - 1))%nat. split; [lia|]. split; [|exists 0%Z; lia]. rewrite Nat.mod_small; lia. }
  destruct Hj as (j & Hj & Ei & q & Eq). rewrite Ei at 1. rewrite Hrot by done. unfold circular_correlation.
  change (map ?g (seq 0 (length x'))) with (g <$> seq 0 (length x')). rewrite list_lookup_fmap, Hlx, lookup_seq_lt by done. cbn [fmap option_fmap option_map]. f_equal.
  change (series (0, 0) complex_sum) with csm. rewrite Hly, Hy.
  assert (HN : N = (n / 2 + (n + (N - n - n / 2)))%nat) by lia. rewrite HN. rewrite csm_split, csm_split.
  assert (HL : ((N - length y + 1) / 2 = n / 2)%nat) by (f_equal; lia).
  assert (Hy' : forall k, (k < N)%nat -> default (0, 0) (y' !! k) = outside y (Z.of_nat k - Z.of_nat (n / 2))).
  { intros k Hk. unfold y'. rewrite pad_lookup, HL by lia. done. }
  rewrite (csm_ext (n / 2) _ (fun _ => (0, 0))), csm_zero.
  2:{ intros k Hk. rewrite Hy' by lia. unfold outside at 1. match goal with |- context [(?aa <? 0)%Z] => destruct (aa <? 0)%Z eqn:E end; [|lia]. rewrite conj_zero. change complex_product with (cmul (A:=R)). ring. }
  rewrite (csm_ext (N - n - n / 2) _ (fun _ => (0, 0))), csm_zero.
  2:{ intros k Hk. rewrite Hy' by lia. unfold outside at 1. match goal with |- context [(?aa <? 0)%Z] => destruct (aa <? 0)%Z eqn:E end; [lia|]. rewrite lookup_ge_None_2 by lia.
      change (default (0, 0) None) with ((0, 0) : C). rewrite conj_zero. change complex_product with (cmul (A:=R)). ring. }
  rewrite (csm_ext n _ (fun k => complex_product (outside x (Z.of_nat k + Z.of_nat i - (Z.of_nat n - 1))) (conjugated (default (0, 0) (y !! k)))));
    [match goal with |- cadd _ (cadd ?aa _) = _ => transitivity aa; [generalize aa; intros; ring | reflexivity] end|].
  intros k Hk. rewrite Hy' by lia. replace (Z.of_nat (n / 2 + k) - Z.of_nat (n / 2))%Z with (Z.of_nat k) by lia. rewrite outside_nat. f_equal.
  rewrite <- (pad_around x n (Z.of_nat k + Z.of_nat i - (Z.of_nat n - 1)) Hx Hn) by lia. fold N x'.
  rewrite <- (at_period x' (Z.of_nat (n / 2) + (Z.of_nat k + Z.of_nat i - (Z.of_nat n - 1))) q), Hlx. f_equal. lia.
Qed.
