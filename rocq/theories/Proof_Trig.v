(** The trigonometric polynomial through the points of a signal. *)
From Verif Require Import Spec_Interpolate Proof_Dft Proof_Fft Proof_FftR.
From stdpp Require Import list_numbers.
Local Open Scope R_scope.
Local Notation C := (R * R)%type.
Local Notation sel l k := (default ((0, 0) : C) (l !! k)).

Lemma circle_add x y : circle (x + y) = cmul (circle x) (circle y).
Proof. unfold circle, cmul. cbn. rewrite cos_plus, sin_plus. f_equal; ring. Qed.
Lemma circle_0 : circle 0 = (1, 0).
Proof. unfold circle. by rewrite cos_0, sin_0. Qed.
Lemma turn_circle n k : turn n k = circle (2 * PI * IZR k / INR n).
Proof. done. Qed.

(** Where bin [k] of [n] bins goes if [m] bins are made of them *)
Definition moved (n m k : nat) : nat := if (k <? n - n / 2)%nat then k else (k + m - n)%nat.
Lemma halves_le n : (n / 2 <= n)%nat.
Proof. pose proof (Nat.div_mod n 2). lia. Qed.
Lemma moved_lt n m k : (k < n)%nat -> (n <= m)%nat -> (moved n m k < m)%nat.
Proof. intros. unfold moved. destruct (Nat.ltb_spec k (n - n / 2)); lia. Qed.
Lemma moved_turn n m k i : (0 < m)%nat -> (n <= m)%nat -> turn m (1 * (Z.of_nat (moved n m k) * i)) = turn m (frequency n k * i).
Proof.
  intros Hm Hnm. unfold moved, frequency. destruct (Nat.ltb_spec k (n - n / 2)); [f_equal; lia|].
  rewrite <- (turn_period m ((Z.of_nat k - Z.of_nat n) * i) i Hm). f_equal. rewrite Nat2Z.inj_sub by lia. lia.
Qed.

Lemma csm_padded (X : list C) m l (phi : nat -> C) : (length X <= m)%nat ->
  csm m (fun p => cmul (sel (padded (0, 0) Center l m X) p) (phi p)) = csm (length X) (fun k => cmul (sel X k) (phi (moved (length X) m k))).
Proof.
  intros Hm. set (n := length X) in *. pose proof (halves_le n) as Hh. set (a := (n - n / 2)%nat).
  assert (Ea : length (take a X) = a) by (rewrite take_length; fold n; lia).
  assert (En : n = (a + n / 2)%nat) by (unfold a; lia).
  assert (Em : m = (a + ((m - n) + n / 2))%nat) by lia.
  transitivity (cadd (csm a (fun k => cmul (sel X k) (phi k))) (csm (n / 2) (fun k => cmul (sel X (a + k)%nat) (phi (a + k + (m - n))%nat)))).
  - rewrite Em at 1. rewrite csm_split, csm_split. unfold padded. fold n a.
    rewrite (csm_ext a _ (fun k => cmul (sel X k) (phi k))).
    2: { intros k Hk. rewrite lookup_app_l by lia. by rewrite lookup_take by done. }
    rewrite (csm_ext (m - n) _ (fun _ => (0, 0))), csm_zero.
    2: { intros k Hk. rewrite lookup_app_r by lia. rewrite lookup_app_l by (unfold zeros; rewrite replicate_length; lia).
         unfold zeros. rewrite lookup_replicate_2 by lia. change (default ?aa (Some ?bb)) with bb. ring. }
    rewrite (csm_ext (n / 2) _ (fun k => cmul (sel X (a + k)%nat) (phi (a + k + (m - n))%nat))); [ring|].
    intros k Hk. rewrite lookup_app_r by lia. rewrite lookup_app_r by (unfold zeros; rewrite replicate_length; lia).
    unfold zeros. rewrite replicate_length, lookup_drop. f_equal; [do 2 f_equal; lia | f_equal; lia].
  - symmetry. rewrite En at 1. rewrite csm_split. f_equal; apply csm_ext; intros k Hk; unfold moved; fold a.
    + by rewrite (proj2 (Nat.ltb_lt k a)) by done.
    + rewrite (proj2 (Nat.ltb_ge (a + k) a)) by lia. do 2 f_equal. lia.
Qed.
Lemma padded_center_length (X : list C) m l : (length X <= m)%nat -> length (padded (0, 0) Center l m X) = m.
Proof.
  intros Hm. pose proof (halves_le (length X)). unfold padded, zeros. rewrite !app_length, take_length, drop_length, replicate_length. lia.
Qed.

(** The bins which are left if [n] bins are reduced to [m] *)
Definition reduced (m : nat) (X : list C) : list C := take (m - m / 2) X ++ drop (length X - m / 2) X.
Lemma reduced_length m X : (m <= length X)%nat -> length (reduced m X) = m.
Proof. intros Hm. pose proof (halves_le m). unfold reduced. rewrite app_length, take_length, drop_length. lia. Qed.
Lemma csm_reduced (X : list C) m (phi : nat -> C) : (m <= length X)%nat ->
  csm m (fun p => cmul (sel (reduced m X) p) (phi p)) =
  csm (length X) (fun k => if (k <? m - m / 2)%nat then cmul (sel X k) (phi k)
                           else if (k <? length X - m / 2)%nat then (0, 0) else cmul (sel X k) (phi (k - (length X - m))%nat)).
Proof.
  intros Hm. set (n := length X) in *. pose proof (halves_le m) as Hh. set (a := (m - m / 2)%nat).
  assert (Ea : length (take a X) = a) by (rewrite take_length; fold n; lia).
  assert (Em : m = (a + m / 2)%nat) by (unfold a; lia).
  assert (En : n = (a + ((n - m) + m / 2))%nat) by lia.
  transitivity (cadd (csm a (fun k => cmul (sel X k) (phi k))) (csm (m / 2) (fun k => cmul (sel X (n - m / 2 + k)%nat) (phi (a + k)%nat)))).
  - rewrite Em at 1. rewrite csm_split. unfold reduced. fold n a. f_equal; apply csm_ext; intros k Hk.
    + rewrite lookup_app_l by lia. by rewrite lookup_take by done.
    + rewrite lookup_app_r by lia. rewrite lookup_drop. do 3 f_equal. lia.
  - symmetry. rewrite En at 1. rewrite csm_split, csm_split.
    rewrite (csm_ext a (fun i => if (i <? a)%nat then _ else _) (fun k => cmul (sel X k) (phi k))).
    2: { intros k Hk. by rewrite (proj2 (Nat.ltb_lt k a)) by done. }
    rewrite (csm_ext (n - m) _ (fun _ => (0, 0))), csm_zero.
    2: { intros k Hk. rewrite (proj2 (Nat.ltb_ge (a + k) a)) by lia. by rewrite (proj2 (Nat.ltb_lt (a + k) (n - m / 2))) by lia. }
    rewrite (csm_ext (m / 2) (fun i => if (a + (n - m + i) <? a)%nat then _ else _) (fun k => cmul (sel X (n - m / 2 + k)%nat) (phi (a + k)%nat))); [ring|].
    intros k Hk. rewrite (proj2 (Nat.ltb_ge _ a)) by lia. rewrite (proj2 (Nat.ltb_ge _ (n - m / 2))) by lia. f_equal; [do 2 f_equal; lia | f_equal; lia].
Qed.

Lemma IZR_frequency n k : (k < n)%nat -> IZR (frequency n k) = if (k <? n - n / 2)%nat then INR k else INR k - INR n.
Proof. intros Hk. unfold frequency. destruct (k <? n - n / 2)%nat; [by rewrite INR_IZR_INZ | by rewrite minus_IZR, <- !INR_IZR_INZ]. Qed.

Lemma halves_mono m n : (m <= n)%nat -> (m / 2 <= n / 2)%nat /\ (m - m / 2 <= n - n / 2)%nat.
Proof.
  intros Hm. pose proof (Nat.div_mod n 2 ltac:(lia)). pose proof (Nat.mod_upper_bound n 2 ltac:(lia)).
  pose proof (Nat.div_mod m 2 ltac:(lia)). pose proof (Nat.mod_upper_bound m 2 ltac:(lia)). lia.
Qed.
Lemma band_up n m k : (k < n)%nat -> (n <= m)%nat -> band m (frequency n k) = 1.
Proof.
  intros Hk Hm. unfold band. replace (in_band m (frequency n k)) with true; [done|]. symmetry. unfold in_band, frequency.
  destruct (halves_mono n m Hm). pose proof (halves_le n). apply andb_true_intro.
  destruct (Nat.ltb_spec k (n - n / 2)); split; first [apply Z.leb_le | apply Z.ltb_lt]; lia.
Qed.
Lemma band_down n m k : (k < n)%nat -> (m <= n)%nat -> in_band m (frequency n k) = ((k <? m - m / 2) || (n - m / 2 <=? k))%nat.
Proof.
  intros Hk Hm. unfold in_band, frequency. destruct (halves_mono m n Hm). pose proof (halves_le n). pose proof (halves_le m).
  destruct (Nat.ltb_spec k (n - n / 2)), (Nat.ltb_spec k (m - m / 2)), (Nat.leb_spec (n - m / 2) k); cbn [orb];
    match goal with |- _ = true => apply andb_true_intro; split; first [apply Z.leb_le | apply Z.ltb_lt]; lia
                  | |- _ = false => apply andb_false_iff; first [left; apply Z.leb_gt; lia | right; apply Z.ltb_ge; lia] end.
Qed.

(** The points [P] are the spectrum [X] with the delay [d]. *)
Definition phased (d : R) (X : list C) : list C :=
  imap (fun k x => cmul x (circle (2 * PI * IZR (frequency (length X) k) * d / INR (length X)))) X.
Lemma phased_length d X : length (phased d X) = length X.
Proof. apply imap_length. Qed.
Lemma phased_lookup d (X : list C) k : (k < length X)%nat -> sel (phased d X) k = cmul (sel X k) (circle (2 * PI * IZR (frequency (length X) k) * d / INR (length X))).
Proof. intros Hk. unfold phased. rewrite list_lookup_imap. destruct (lookup_lt_is_Some_2 X k Hk) as [x ->]. done. Qed.
Lemma phased_0 X : phased 0 X = X.
Proof.
  unfold phased. transitivity (imap (fun _ x => x) X); [|apply list_eq; intros i; rewrite list_lookup_imap; by destruct (X !! i)].
  apply imap_ext. intros k x _. replace (2 * PI * IZR (frequency (length X) k) * 0 / INR (length X)) with 0 by (unfold Rdiv; ring). rewrite circle_0. ring.
Qed.

Lemma samples_length c g m d : length (samples c g m d) = m.
Proof. unfold samples. by rewrite map_length, seq_length. Qed.
Lemma samples_lookup c g m d i : (i < m)%nat -> samples c g m d !! i = Some (polynomial c g (INR i * INR (length c) / INR m + d)).
Proof. intros Hi. unfold samples. change (map ?g ?l) with (g <$> l). by rewrite list_lookup_fmap, lookup_seq_lt. Qed.
Lemma polynomial_ext c g g' t : (forall k, (k < length c)%nat -> g (frequency (length c) k) = g' (frequency (length c) k)) -> polynomial c g t = polynomial c g' t.
Proof. intros E. unfold polynomial. cbv zeta. f_equal. apply csm_ext. intros k Hk. by rewrite E. Qed.
Lemma samples_ext c g g' m d : (forall k, (k < length c)%nat -> g (frequency (length c) k) = g' (frequency (length c) k)) -> samples c g m d = samples c g' m d.
Proof. intros E. unfold samples. apply map_ext. intros i. by apply polynomial_ext. Qed.

Lemma rscale_cmul a (x : C) : rscale a x = cmul (a, 0) x.
Proof. destruct x as [u w]. unfold rscale, cmul. cbn. f_equal; ring. Qed.

Lemma sampled_term (X : list C) n m k i d (g : R) : (0 < n)%nat -> (0 < m)%nat ->
  cmul (cmul (sel X k) (circle (2 * PI * IZR (frequency n k) * d / INR n))) (cmul (cmul (INR m / INR n, 0) (g, 0)) (turn m (frequency n k * Z.of_nat i))) =
  cmul (INR m / INR n, 0) (cmul (sel X k) (cmul (g, 0) (circle (2 * PI * IZR (frequency n k) * (INR i * INR n / INR m + d) / INR n)))).
Proof.
  intros Hn Hm. pose proof (Proof_Dft.INR_pos n Hn). pose proof (Proof_Dft.INR_pos m Hm).
  rewrite turn_circle, mult_IZR, <- INR_IZR_INZ.
  replace (2 * PI * IZR (frequency n k) * (INR i * INR n / INR m + d) / INR n) with
    (2 * PI * IZR (frequency n k) * d / INR n + 2 * PI * (IZR (frequency n k) * INR i) / INR m) by (field; lra).
  rewrite circle_add. ring.
Qed.
Lemma scale_out n m (z : C) : (0 < n)%nat -> (0 < m)%nat -> cmul (1 / INR m, 0) (cmul (INR m / INR n, 0) z) = cmul (1 / INR n, 0) z.
Proof.
  intros Hn Hm. pose proof (Proof_Dft.INR_pos n Hn). pose proof (Proof_Dft.INR_pos m Hm). transitivity (cmul (cmul (1 / INR m, 0) (INR m / INR n, 0)) z); [ring|]. f_equal.
  unfold cmul. cbn. f_equal; field; lra.
Qed.

(** Padding the spectrum in its middle gives samples of the polynomial. *)
Theorem upsampled c m l d (g : Z -> R) (G : nat -> R) Q : c <> [] -> (length c <= m)%nat -> length Q = m ->
  (forall p, (p < m)%nat -> sel Q p = cmul (sel (padded (0, 0) Center l m (phased d (dft (-1) c))) p) (cmul (INR m / INR (length c), 0) (G p, 0))) ->
  (forall k, (k < length c)%nat -> G (moved (length c) m k) = g (frequency (length c) k)) ->
  map (rscale (1 / INR m)) (dft 1 Q) = samples c g m d.
Proof.
  intros Hc Hm HQ EQ EG. set (n := length c) in *. assert (Hn : (0 < n)%nat) by (subst n; destruct c; [done | cbn; lia]).
  assert (Hm0 : (0 < m)%nat) by lia.
  apply list_eq. intros i. destruct (decide (i < m)%nat) as [Hi|Hi].
  2: { rewrite !lookup_ge_None_2; [done | rewrite samples_length; lia | rewrite map_length, dft_length; lia]. }
  change (map ?ff ?l) with (ff <$> l). rewrite list_lookup_fmap, dft_lookup, samples_lookup by lia. cbn [fmap option_fmap option_map]. f_equal.
  rewrite HQ, rscale_cmul. set (P := phased d (dft (-1) c)) in *.
  assert (HP : length P = n) by (unfold P; rewrite phased_length, dft_length; done).
  rewrite (csm_ext m _ (fun p => cmul (sel (padded (0, 0) Center l m P) p) (cmul (cmul (INR m / INR n, 0) (G p, 0)) (turn m (1 * (Z.of_nat p * Z.of_nat i)))))).
  2: { intros p Hp. rewrite EQ by done. ring. }
  rewrite (csm_padded P m l (fun p => cmul (cmul (INR m / INR n, 0) (G p, 0)) (turn m (1 * (Z.of_nat p * Z.of_nat i))))) by lia.
  rewrite HP. rewrite (csm_ext n _ (fun k => cmul (INR m / INR n, 0) (cmul (sel (dft (-1) c) k)
    (cmul (g (frequency n k), 0) (circle (2 * PI * IZR (frequency n k) * (INR i * INR n / INR m + d) / INR n)))))).
  2: { intros k Hk. rewrite EG, moved_turn by done. unfold P. rewrite phased_lookup by (by rewrite dft_length). rewrite dft_length. fold n. by apply sampled_term. }
  rewrite csm_mul_l. apply scale_out; done.
Qed.

(** Removing bins of the middle of the spectrum gives samples of the polynomial without these frequencies. *)
Theorem downsampled c m d Q : c <> [] -> (0 < m)%nat -> (m <= length c)%nat -> length Q = m ->
  (forall p, (p < m)%nat -> sel Q p = cmul (sel (reduced m (phased d (dft (-1) c))) p) (INR m / INR (length c), 0)) ->
  map (rscale (1 / INR m)) (dft 1 Q) = samples c (band m) m d.
Proof.
  intros Hc Hm0 Hm HQ EQ. set (n := length c) in *. assert (Hn : (0 < n)%nat) by lia.
  apply list_eq. intros i. destruct (decide (i < m)%nat) as [Hi|Hi].
  2: { rewrite !lookup_ge_None_2; [done | rewrite samples_length; lia | rewrite map_length, dft_length; lia]. }
  change (map ?ff ?l) with (ff <$> l). rewrite list_lookup_fmap, dft_lookup, samples_lookup by lia. cbn [fmap option_fmap option_map]. f_equal.
  rewrite HQ, rscale_cmul. set (P := phased d (dft (-1) c)) in *.
  assert (HP : length P = n) by (unfold P; rewrite phased_length, dft_length; done).
  rewrite (csm_ext m _ (fun p => cmul (sel (reduced m P) p) (cmul (INR m / INR n, 0) (turn m (1 * (Z.of_nat p * Z.of_nat i)))))).
  2: { intros p Hp. rewrite EQ by done. ring. }
  rewrite (csm_reduced P m (fun p => cmul (INR m / INR n, 0) (turn m (1 * (Z.of_nat p * Z.of_nat i))))) by lia.
  rewrite HP. rewrite (csm_ext n _ (fun k => cmul (INR m / INR n, 0) (cmul (sel (dft (-1) c) k)
    (cmul (band m (frequency n k), 0) (circle (2 * PI * IZR (frequency n k) * (INR i * INR n / INR m + d) / INR n)))))).
  2: { intros k Hk. rewrite <- sampled_term by done. unfold band. rewrite band_down by done.
       assert (EP : sel P k = cmul (sel (dft (-1) c) k) (circle (2 * PI * IZR (frequency n k) * d / INR n))).
       { unfold P. rewrite phased_lookup by (by rewrite dft_length). by rewrite dft_length. }
       destruct (halves_mono m n Hm). pose proof (halves_le n).
       destruct (Nat.ltb_spec k (m - m / 2)); cbn [orb].
       - rewrite EP. replace (turn m (1 * (Z.of_nat k * Z.of_nat i))) with (turn m (frequency n k * Z.of_nat i)); [ring|].
         unfold frequency. rewrite (proj2 (Nat.ltb_lt _ _)) by lia. f_equal. lia.
       - rewrite Nat.leb_antisym. destruct (Nat.ltb_spec k (n - m / 2)); cbn [negb].
         + ring.
         + rewrite EP. replace (turn m (1 * (Z.of_nat (k - (n - m)) * Z.of_nat i))) with (turn m (frequency n k * Z.of_nat i)); [ring|].
           unfold frequency. rewrite (proj2 (Nat.ltb_ge _ _)) by lia.
           rewrite <- (turn_period m ((Z.of_nat k - Z.of_nat n) * Z.of_nat i) (Z.of_nat i) Hm0). f_equal. rewrite !Nat2Z.inj_sub by lia. lia. }
  rewrite csm_mul_l. apply scale_out; done.
Qed.

(** The polynomial goes through the points. *)
Theorem polynomial_through c q : (q < length c)%nat -> Some (polynomial c (fun _ => 1) (INR q)) = c !! q.
Proof.
  intros Hq. set (n := length c) in *. assert (Hn : (0 < n)%nat) by lia. pose proof (Proof_Dft.INR_pos n Hn) as Hp.
  assert (Hc : c <> []) by (intros ->; unfold n in Hq; cbn in Hq; lia).
  assert (E : map (rscale (1 / INR n)) (dft 1 (dft (-1) c)) = samples c (fun _ => 1) n 0).
  { apply (upsampled c n 0 0 _ (fun _ => 1)); [done | done | by rewrite dft_length | |done].
    intros p Hp'. rewrite phased_0. unfold padded. rewrite dft_length. fold n. rewrite Nat.sub_diag. cbn [zeros replicate app]. rewrite take_drop.
    replace (INR n / INR n) with 1 by (field; lra). ring. }
  assert (E' : map (rscale (1 / INR n)) (dft 1 (dft (-1) c)) = c).
  { rewrite (dft_dft (-1) 1) by (done || by right). fold n. rewrite map_map. transitivity (map (fun x => x) c); [|apply map_id]. apply map_ext. intros x.
    rewrite rscale_cmul. destruct x as [u w]. unfold cmul. cbn. f_equal; field; lra. }
  rewrite E' in E. rewrite E at 2. rewrite samples_lookup by done. fold n. do 2 f_equal. field. lra.
Qed.
