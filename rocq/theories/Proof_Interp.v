(** Interpolation between neighbours. *)
From Verif Require Export Proof_Decimate.
Local Open Scope R_scope.

(** ** Rounding *)
Lemma Rfloor_bounds x : Rfloor x <= x < Rfloor x + 1.
Proof. unfold Rfloor. destruct (base_Int_part x) as [H1 H2]. lra. Qed.
Lemma Int_part_unique x z : IZR z <= x < IZR z + 1 -> Int_part x = z.
Proof.
  intros [H1 H2]. destruct (base_Int_part x) as [H3 H4].
  assert (IZR z < IZR (Int_part x) + 1) by lra. assert (IZR (Int_part x) < IZR z + 1) by lra.
  rewrite <- plus_IZR in *. apply lt_IZR in H, H0. lia.
Qed.
Lemma Rfloor_unique x (b : nat) : INR b <= x < INR b + 1 -> Rfloor x = INR b.
Proof. intros Hb. unfold Rfloor. rewrite INR_IZR_INZ in *. f_equal. by apply Int_part_unique. Qed.
Lemma Rfloor_nat x : 0 <= x -> exists b, Rfloor x = INR b /\ INR b <= x < INR b + 1.
Proof.
  intros Hx. pose proof (Rfloor_bounds x) as Hb. exists (Z.to_nat (Int_part x)).
  assert (Hz : (0 <= Int_part x)%Z).
  { unfold Rfloor in Hb. assert (Hlt : -1 < IZR (Int_part x)) by lra. apply lt_IZR in Hlt. lia. }
  unfold Rfloor in *. rewrite INR_IZR_INZ, Z2Nat.id by done. done.
Qed.
Lemma Int_part_INR b : Int_part (INR b) = Z.of_nat b.
Proof. apply Int_part_unique. rewrite <- INR_IZR_INZ. lra. Qed.
Lemma Rtrunc_INR b : Rtrunc (INR b) = Z.of_nat b.
Proof. unfold Rtrunc. pose proof (pos_INR b). destruct (Rlt_dec (INR b) 0); [lra|]. apply Int_part_INR. Qed.
Lemma to_usize_INR b : to_usize (INR b) = Some b.
Proof. cbn [to_usize Rrounding]. pose proof (pos_INR b). destruct (Rlt_dec (-1) (INR b)); [|lra]. by rewrite Rtrunc_INR, Nat2Z.id. Qed.
Lemma as_usize_INR b : as_usize (INR b) = b.
Proof. cbn [as_usize Rrounding]. by rewrite Rtrunc_INR, Nat2Z.id. Qed.
Lemma to_usize_floor_neg x : x < 0 -> to_usize (Rfloor x) = None.
Proof.
  intros Hx. cbn [to_usize Rrounding]. destruct (Rlt_dec (-1) (Rfloor x)) as [Hl|]; [|done]. exfalso.
  pose proof (Rfloor_bounds x). unfold Rfloor in *. apply lt_IZR in Hl. assert (Hz : IZR (Int_part x) < 0) by lra. apply lt_IZR in Hz. lia.
Qed.
Lemma Rround_nat x : 0 <= x -> exists n, Rround x = INR n /\ INR n - / 2 <= x < INR n + / 2.
Proof.
  intros Hx. unfold Rround. destruct (Rlt_dec x 0); [lra|]. destruct (Rfloor_nat (x + / 2)) as (b & Hb & H1); [lra|]. exists b. split; [done | lra].
Qed.
Lemma Rround_unique x n : 0 <= x -> INR n - / 2 <= x < INR n + / 2 -> Rround x = INR n.
Proof. intros Hx Hn. unfold Rround. destruct (Rlt_dec x 0); [lra|]. apply Rfloor_unique. lra. Qed.
Lemma Rround_INR n : Rround (INR n) = INR n.
Proof. apply Rround_unique; [apply pos_INR | lra]. Qed.

(** ** Filling a range *)
Lemma INR_1_add a : INR (a + 1) = INR a + 1.
Proof. by rewrite plus_INR. Qed.
Lemma fill_counting_spec (a b : nat) step (g : nat -> R) dest : (a <= b <= length dest)%nat ->
  (forall k, (a <= k < b)%nat -> step (INR k) = Done (g k)) ->
  exists dest', fill_counting a b step (INR a, dest) = Done (INR b, dest') /\ length dest' = length dest /\
    (forall k, (a <= k < b)%nat -> dest' !! k = Some (g k)) /\ (forall k, ~ (a <= k < b)%nat -> dest' !! k = dest !! k).
Proof.
  intros Hab Hg. unfold fill_counting. cbn [snd]. rewrite slice_Done by lia. rewrite bind_Done.
  destruct (loop_inv (fun k '(i, d) => i = INR k /\ length d = length dest /\
      (forall q, (a <= q < k)%nat -> d !! q = Some (g q)) /\ (forall q, ~ (a <= q < k)%nat -> d !! q = dest !! q)) (b - a) a
      (fun k '(i, dest) => x ← step i; dest ← wr dest k x; Done ((i + n1)%num, dest)) (INR a, dest)) as ([i d] & E & Hi & Hl & H1 & H2).
  - split_and!; try done. intros q Hq. lia.
  - intros k [i d] Hk (-> & Hl & H1 & H2). eexists (_, _). rewrite Hg by lia. rewrite bind_Done, wr_Done by lia. rewrite bind_Done. split; [done|]. split_and!.
    + symmetry. apply INR_1_add.
    + by rewrite insert_length.
    + intros q Hq. destruct (decide (q = k)) as [->|]; [by rewrite list_lookup_insert by lia|]. rewrite list_lookup_insert_ne by done. apply H1. lia.
    + intros q Hq. rewrite list_lookup_insert_ne by lia. apply H2. lia.
  - replace (a + (b - a))%nat with b in * by lia. exists d. rewrite E, Hi. done.
Qed.
Lemma fill_counting_panics (a b k : nat) step dest : (a <= k < b)%nat -> step (INR k) = Panicked -> fill_counting a b step (INR a, dest) = Panicked.
Proof.
  intros Hk Hs. unfold fill_counting. destruct (slice _ _ _); [|done]. rewrite bind_Done. remember (b - a)%nat as n eqn:En.
  assert (Hkn : (k < a + n)%nat) by lia. destruct Hk as [Hk _]. clear En. revert a dest Hk Hkn. induction n as [|n IH]; intros a dest Hk Hkn; [lia|]. cbn [loop].
  destruct (decide (k = a)) as [->|Hne]; [by rewrite Hs|]. destruct (step (INR a)) as [x|]; [|done]. rewrite bind_Done. destruct (wr dest a x) as [d|]; [|done]. rewrite !bind_Done.
  cbn [nadd n1 Rnum]. rewrite <- INR_1_add. apply IH; lia.
Qed.

Lemma interpolated_len_Done n f N : (0 < n)%nat -> Rround (INR (n - 1) * f) = INR N -> interpolated_len n f = Done (N + 1)%nat.
Proof. intros Hn Hr. unfold interpolated_len. rewrite usub_Done by lia. rewrite bind_Done. cbn [fround Rrounding nofnat Rnum nmul]. by rewrite Hr, to_usize_INR. Qed.

(** ** Linear interpolation *)
Section lin.
Lemma lin_step x (f delay : R) j b : (b + 1 < length x)%nat -> INR b <= INR j / f + delay < INR b + 1 ->
  (let rounded := (INR j / f + delay)%num in let beforef := ffloor rounded in
   before ← unwrapped (to_usize beforef); y0 ← rd x before; y1 ← rd x (before + 1)%nat; Done (y0 + (y1 - y0) * (rounded - beforef))%num) = Done (on_line x b (INR j / f + delay)).
Proof.
  intros Hb Ht. cbv zeta. cbn [nadd nsub nmul ndiv Rnum ffloor Rrounding]. rewrite (Rfloor_unique _ b Ht), to_usize_INR. cbn [unwrapped]. rewrite bind_Done.
  destruct (lookup_lt_is_Some_2 x b) as [y0 H0]; [lia|]. destruct (lookup_lt_is_Some_2 x (b + 1)) as [y1 H1]; [lia|].
  unfold rd, on_line. rewrite H0, H1, !bind_Done. done.
Qed.

Theorem interpolate_lin_spec b (v : dvec R) x f delay N : reals v x -> x <> [] -> 0 < f -> 0 <= delay -> Rround (INR (length x - 1) * f) = INR N ->
  N = 0%nat \/ INR (N - 1) / f + delay < INR (length x - 1) -> lends b v (N + 1) ->
  exists v' b' y, interpolate_lin b v f delay = Done (v', b') /\ reals v' y /\ same_meta v v' /\ length y = (N + 1)%nat /\ y !! N = x !! (length x - 1)%nat /\
    forall j p, (j < N)%nat -> INR p <= INR j / f + delay < INR p + 1 -> y !! j = Some (on_line x p (INR j / f + delay)).
Proof.
  intros [Hc Hv] Hx Hf Hd Hr Hfit Hb. assert (Hn : (0 < length x)%nat) by (destruct x; [done | cbn; lia]).
  unfold interpolate_lin. pose proof (vdata_inv v x Hv) as (Hl & _ & _). unfold vdata in Hv. unfold len. rewrite Hv, Hl, (interpolated_len_Done _ _ N) by done. rewrite bind_Done.
  destruct (borrow_lends (n0 : R) b v (N + 1) Hb) as (t & -> & Hlt). rewrite bind_Done, Hc, bind_Done, (usub_Done (N + 1) 1) by lia. rewrite bind_Done. replace (N + 1 - 1)%nat with N by lia.
  set (place := fun j : nat => Z.to_nat (Int_part (INR j / f + delay))).
  assert (Hplace : forall j, (j < N)%nat -> INR (place j) <= INR j / f + delay < INR (place j) + 1 /\ (place j + 1 < length x)%nat).
  { intros j Hj. assert (Ht : 0 <= INR j / f + delay).
    { pose proof (pos_INR j). assert (0 <= INR j / f); [|lra]. apply Rmult_le_pos; [done|]. by left; apply Rinv_0_lt_compat. }
    destruct (Rfloor_nat _ Ht) as (p & Hp & H1). assert (Hpl : place j = p).
    { unfold place. rewrite (Int_part_unique _ (Z.of_nat p)); [lia|]. by rewrite <- INR_IZR_INZ. }
    rewrite Hpl. split; [done|]. destruct Hfit as [->|Hfit]; [lia|].
    assert (INR j / f <= INR (N - 1) / f). { apply Rmult_le_compat_r; [by left; apply Rinv_0_lt_compat|]. apply le_INR. lia. }
    assert (Hlt2 : INR p < INR (length x - 1)) by lra. apply INR_lt in Hlt2. lia. }
  change (n0 : R) with (INR 0).
  match goal with |- context [fill_counting 0 N ?st _] => destruct (fill_counting_spec 0 N st (fun j => on_line x (place j) (INR j / f + delay)) t) as (dest & -> & Hld & H1 & H2) end.
  - lia.
  - intros j Hj. destruct (Hplace j) as [K1 K2]; [lia|]. apply (lin_step x f delay j (place j) K2 K1).
  - rewrite bind_Done, (usub_Done (length x) 1) by lia. rewrite bind_Done.
    destruct (lookup_lt_is_Some_2 x (length x - 1)) as [y Hy]; [lia|]. unfold rd. rewrite Hy, bind_Done, wr_Done by lia. rewrite bind_Done.
    destruct (trade_vdata b v (<[N:=y]> dest) (N + 1)%nat Hb) as (v' & b' & E & Hv' & Hm); [by rewrite insert_length, Hld|].
    destruct (trade b (<[N:=y]> dest) (data v)) as [s b2]. apply pair_equal_spec in E as [E ->]. rewrite E.
    exists v', b', (<[N:=y]> dest). split; [done|]. split_and!.
    + split; [|done]. destruct Hm as (_ & _ & Hns). unfold is_complex in *. by rewrite Hns.
    + done.
    + by rewrite insert_length, Hld.
    + by rewrite list_lookup_insert by lia.
    + intros j p Hj Hp. rewrite list_lookup_insert_ne by lia. rewrite H1 by lia. do 2 f_equal.
      destruct (Hplace j Hj) as [K _]. apply Rfloor_unique in K, Hp. rewrite K in Hp. by apply INR_eq.
Qed.

(** A delay which leads behind the last sample or before the first one *)
Theorem interpolate_lin_panics b (v : dvec R) x f delay N j : reals v x -> x <> [] -> 0 < f -> Rround (INR (length x - 1) * f) = INR N -> lends b v (N + 1) ->
  (j < N)%nat -> INR j / f + delay < 0 \/ INR (length x - 1) <= INR j / f + delay -> interpolate_lin b v f delay = Panicked.
Proof.
  intros [Hc Hv] Hx Hf Hr Hb Hj Hout. assert (Hn : (0 < length x)%nat) by (destruct x; [done | cbn; lia]).
  unfold interpolate_lin. pose proof (vdata_inv v x Hv) as (Hl & _ & _). unfold vdata in Hv. unfold len. rewrite Hv, Hl, (interpolated_len_Done _ _ N) by done. rewrite bind_Done.
  destruct (borrow_lends (n0 : R) b v (N + 1) Hb) as (t & -> & Hlt). rewrite bind_Done, Hc, bind_Done, (usub_Done (N + 1) 1) by lia. rewrite bind_Done. replace (N + 1 - 1)%nat with N by lia.
  change (n0 : R) with (INR 0). rewrite (fill_counting_panics 0 N j); [done | lia |]. cbv zeta. cbn [nadd nsub nmul ndiv Rnum ffloor Rrounding].
  destruct Hout as [Hneg|Hpos].
  - by rewrite to_usize_floor_neg.
  - assert (Ht : 0 <= INR j / f + delay) by (pose proof (pos_INR (length x - 1)); lra).
    destruct (Rfloor_nat _ Ht) as (p & -> & H1). rewrite to_usize_INR. cbn [unwrapped]. rewrite bind_Done.
    assert (Hp : (length x - 1 < p + 1)%nat). { apply INR_lt. rewrite INR_1_add. lra. }
    destruct (rd x p); [|done]. rewrite bind_Done. unfold rd. rewrite lookup_ge_None_2 by lia. done.
Qed.

(** Integer factors, no delay: the grid of the samples is kept. *)
Theorem interpolate_lin_integer b (v : dvec R) x k : reals v x -> x <> [] -> (0 < k)%nat -> lends b v ((length x - 1) * k + 1) ->
  exists v' b' y, interpolate_lin b v (INR k) 0 = Done (v', b') /\ reals v' y /\ same_meta v v' /\ length y = ((length x - 1) * k + 1)%nat /\
    (forall i, (i < length x)%nat -> y !! (i * k)%nat = x !! i) /\
    (forall i r, (i + 1 < length x)%nat -> (r < k)%nat -> y !! (i * k + r)%nat = Some (on_line x i (INR i + INR r / INR k))) /\
    (forall a c, (forall i, (i < length x)%nat -> x !! i = Some (a + c * INR i)) -> forall j, (j < length y)%nat -> y !! j = Some (a + c * (INR j / INR k))).
Proof.
  intros Hv Hx Hk Hb. assert (Hn : (0 < length x)%nat) by (destruct x; [done | cbn; lia]).
  assert (Hk' : 0 < INR k) by (apply (lt_INR 0); done).
  destruct (interpolate_lin_spec b v x (INR k) 0 ((length x - 1) * k) Hv Hx Hk') as (v' & b' & y & E & Hy & Hm & Hl & Hlast & Hj); [lra | | | done |].
  - rewrite <- mult_INR. apply Rround_INR.
  - destruct (decide ((length x - 1) * k = 0)%nat) as [|Hne]; [by left|]. right. rewrite Rplus_0_r.
    apply (Rmult_lt_reg_r (INR k)); [done|]. unfold Rdiv. rewrite Rmult_assoc, Rinv_l, Rmult_1_r by lra. rewrite <- mult_INR. apply lt_INR. nia.
  - assert (Hgrid : forall i r, (i + 1 < length x)%nat -> (r < k)%nat -> y !! (i * k + r)%nat = Some (on_line x i (INR i + INR r / INR k))).
    { intros i r Hi Hr. assert (Et : INR (i * k + r) / INR k + 0 = INR i + INR r / INR k) by (rewrite plus_INR, mult_INR; field; lra).
      assert (Hr1 : INR r / INR k < 1). { apply (Rmult_lt_reg_r (INR k)); [done|]. unfold Rdiv. rewrite Rmult_assoc, Rinv_l by lra. rewrite Rmult_1_r, Rmult_1_l. by apply lt_INR. }
      assert (Hr0 : 0 <= INR r / INR k) by (apply Rmult_le_pos; [apply pos_INR|]; by left; apply Rinv_0_lt_compat).
      rewrite (Hj _ i); [by rewrite Et | nia | rewrite Et; lra]. }
    assert (Hsamples : forall i, (i < length x)%nat -> y !! (i * k)%nat = x !! i).
    { intros i Hi. destruct (decide (i = length x - 1)%nat) as [->|Hne].
      - apply Hlast.
      - rewrite <- (Nat.add_0_r (i * k)), Hgrid by lia. unfold on_line. destruct (lookup_lt_is_Some_2 x i Hi) as [z ->]. cbn [INR]. f_equal.
        change (default ?aa (Some ?bb)) with bb. field. lra. }
    exists v', b', y. split; [exact E|]. split; [exact Hy|]. split; [exact Hm|]. split; [exact Hl|]. split; [exact Hsamples|]. split; [exact Hgrid|].
    intros a c Hlin j Hjl. rewrite Hl in Hjl. pose proof (Nat.div_mod j k ltac:(lia)) as Hdm. pose proof (Nat.mod_upper_bound j k ltac:(lia)) as Hmod.
    set (i := (j / k)%nat) in *. set (r := (j mod k)%nat) in *. clearbody i r.
    destruct (decide (i + 1 < length x)%nat) as [Hi|Hi].
    + replace j with (i * k + r)%nat by lia. rewrite Hgrid by done. unfold on_line. rewrite !Hlin by lia. change (default ?aa (Some ?bb)) with bb.
      f_equal. rewrite INR_1_add, plus_INR, mult_INR. field. lra.
    + assert (i = length x - 1 /\ r = 0)%nat as [-> ->] by nia. replace j with ((length x - 1) * k)%nat by lia. rewrite Hsamples, Hlin by lia. f_equal. rewrite mult_INR. field. lra.
Qed.
End lin.

(** ** Hermite interpolation *)
Section hermite.
Lemma hermite_catmull y0 y1 y2 y3 t : hermite y0 y1 y2 y3 t = catmull_rom y0 y1 y2 y3 t.
Proof.
  unfold hermite, catmull_rom. cbv zeta. cbn [nadd nsub nmul ndiv nopp n1 nofnat Rnum]. replace (INR 2) with 2 by (cbn; lra). replace (INR 3) with 3 by (cbn; lra). replace (INR 5) with 5 by (cbn; lra).
  field.
Qed.
(** The polynomial passes through [y1] and [y2] and reproduces straight lines. *)
Lemma catmull_start y0 y1 y2 y3 : catmull_rom y0 y1 y2 y3 0 = y1.
Proof. unfold catmull_rom. cbv zeta. field. Qed.
Lemma catmull_end y0 y1 y2 y3 : catmull_rom y0 y1 y2 y3 1 = y2.
Proof. unfold catmull_rom. cbv zeta. field. Qed.
Lemma catmull_line a c t : catmull_rom (a - c) a (a + c) (a + 2 * c) t = a + c * t.
Proof. unfold catmull_rom. cbv zeta. field. Qed.

Definition at_ (x : list R) (i : nat) : R := default 0 (x !! i).
Lemma extended_in x i : (i < length x)%nat -> extended x (Z.of_nat i) = at_ x i.
Proof.
  intros Hi. unfold extended. destruct (Z.of_nat i <? 0)%Z eqn:E1; [apply Z.ltb_lt in E1; lia|]. destruct (Z.of_nat i <? Z.of_nat (length x))%Z eqn:E2; [|apply Z.ltb_ge in E2; lia]. by rewrite Nat2Z.id.
Qed.
Lemma extended_before x : extended x (-1) = at_ x 0 - (at_ x 1 - at_ x 0).
Proof. unfold extended, at_. cbv zeta. change (-1 <? 0)%Z with true. cbv iota. change (- -1)%Z with 1%Z. change (Z.to_nat 0) with 0%nat. change (Z.to_nat 1) with 1%nat. ring. Qed.
Lemma extended_end x : (2 <= length x)%nat -> extended x (Z.of_nat (length x)) = at_ x (length x - 1) + (at_ x (length x - 1) - at_ x (length x - 2)).
Proof.
  intros Hx. unfold extended, at_. destruct (Z.of_nat (length x) <? 0)%Z eqn:E1; [apply Z.ltb_lt in E1; lia|]. rewrite Z.ltb_irrefl.
  replace (Z.to_nat (Z.of_nat (length x) - 1)) with (length x - 1)%nat by lia. replace (Z.to_nat (Z.of_nat (length x) - 2)) with (length x - 2)%nat by lia.
  replace (Z.of_nat (length x) - (Z.of_nat (length x) - 1))%Z with 1%Z by lia. ring.
Qed.
Lemma extended_end2 x : (2 <= length x)%nat -> extended x (Z.of_nat (length x) + 1) = at_ x (length x - 1) + 2 * (at_ x (length x - 1) - at_ x (length x - 2)).
Proof.
  intros Hx. unfold extended, at_. destruct (Z.of_nat (length x) + 1 <? 0)%Z eqn:E1; [apply Z.ltb_lt in E1; lia|].
  destruct (Z.of_nat (length x) + 1 <? Z.of_nat (length x))%Z eqn:E2; [apply Z.ltb_lt in E2; lia|].
  replace (Z.to_nat (Z.of_nat (length x) - 1)) with (length x - 1)%nat by lia. replace (Z.to_nat (Z.of_nat (length x) - 2)) with (length x - 2)%nat by lia.
  replace (Z.of_nat (length x) + 1 - (Z.of_nat (length x) - 1))%Z with 2%Z by lia. ring.
Qed.
Lemma rd_at x i : (i < length x)%nat -> rd x i = Done (at_ x i).
Proof. intros Hi. unfold rd, at_. by destruct (lookup_lt_is_Some_2 x i Hi) as [y ->]. Qed.

(** Point [i * k + r]: the polynomial through sample [i] and its neighbours *)
Definition hermite_point (x : list R) (k i r : nat) : R :=
  catmull_rom (extended x (Z.of_nat i - 1)) (extended x (Z.of_nat i)) (extended x (Z.of_nat i + 1)) (extended x (Z.of_nat i + 2)) (INR r / INR k).

Lemma place_at k j i r : (r < k)%nat -> j = (i * k + r)%nat -> INR i <= INR j / INR k + 0 < INR i + 1 /\ INR j / INR k + 0 - INR i = INR r / INR k.
Proof.
  intros Hr ->. assert (Hk : 0 < INR k) by (apply (lt_INR 0); lia).
  assert (Et : INR (i * k + r) / INR k + 0 = INR i + INR r / INR k) by (rewrite plus_INR, mult_INR; field; lra).
  assert (Hr1 : INR r / INR k < 1). { apply (Rmult_lt_reg_r (INR k)); [done|]. unfold Rdiv. rewrite Rmult_assoc, Rinv_l by lra. rewrite Rmult_1_r, Rmult_1_l. by apply lt_INR. }
  assert (Hr0 : 0 <= INR r / INR k) by (apply Rmult_le_pos; [apply pos_INR|]; by left; apply Rinv_0_lt_compat).
  rewrite Et. split; lra.
Qed.

Theorem interpolate_hermite_integer b (v : dvec R) x k : reals v x -> (3 <= length x)%nat -> (0 < k)%nat -> lends b v ((length x - 1) * k + 1) ->
  exists v' b' y, interpolate_hermite b v (INR k) 0 = Done (v', b') /\ reals v' y /\ same_meta v v' /\ length y = ((length x - 1) * k + 1)%nat /\
    (forall i r, (i < length x)%nat -> (r < k)%nat -> (i * k + r < length y)%nat -> y !! (i * k + r)%nat = Some (hermite_point x k i r)).
Proof.
  intros [Hc Hv] Hn Hk Hb. set (n := length x) in *. set (N := ((n - 1) * k)%nat) in *.
  unfold interpolate_hermite. pose proof (vdata_inv v x Hv) as (Hl & _ & _). unfold vdata in Hv. unfold len. fold n in Hl. rewrite Hv, Hl, (interpolated_len_Done n _ N); [|lia|rewrite <- mult_INR; apply Rround_INR]. rewrite bind_Done.
  destruct (borrow_lends (n0 : R) b v (N + 1) Hb) as (t & -> & Hlt). rewrite bind_Done, Hc, bind_Done.
  assert (Es : to_usize (fceil ((n1 - 0) * INR k)%num) = Some k).
  { cbn [fceil Rrounding nsub nmul n1 Rnum]. replace (- ((1 - 0) * INR k)) with (IZR (- Z.of_nat k)) by (rewrite opp_IZR, <- INR_IZR_INZ; ring).
    assert (Ef : Rfloor (IZR (- Z.of_nat k)) = IZR (- Z.of_nat k)) by (unfold Rfloor; f_equal; apply Int_part_unique; lra).
    rewrite Ef, <- opp_IZR, Z.opp_involutive, <- INR_IZR_INZ. apply to_usize_INR. }
  rewrite Es. cbn [unwrapped]. rewrite bind_Done.
  assert (HN : (N = (n - 2) * k + k)%nat) by (unfold N; nia). assert (HkN : ((n - 2) * k + k = N)%nat) by lia. assert (Hk2 : (k <= (n - 2) * k)%nat) by nia.
  (* the numbers of samples and the fractions *)
  assert (Hdiv : forall j, exists i r, j = (i * k + r)%nat /\ (r < k)%nat).
  { intros j. exists (j / k)%nat, (j mod k)%nat. split; [pose proof (Nat.div_mod j k ltac:(lia)); lia | apply Nat.mod_upper_bound; lia]. }
  set (g := fun j : nat => hermite_point x k (j / k) (j mod k)).
  assert (Hg : forall i r, (r < k)%nat -> g (i * k + r)%nat = hermite_point x k i r).
  { intros i r Hr. unfold g. rewrite (Nat.add_comm (i * k)), Nat.mod_add, Nat.mod_small, Nat.div_add, Nat.div_small by lia. done. }
  change (n0 : R) with (INR 0).
  (* first points *)
  match goal with |- context [fill_counting 0 k ?st _] => destruct (fill_counting_spec 0 k st g t) as (d1 & -> & Hl1 & G1 & _) end.
  { lia. }
  { intros j Hj. destruct (Hdiv j) as (i & r & Ej & Hr). assert (i = 0)%nat as -> by nia. destruct (place_at k j 0 r Hr Ej) as [K1 K2].
    cbv zeta. cbn [nadd nsub nmul ndiv Rnum ffloor Rrounding]. rewrite (Rfloor_unique _ 0 K1), to_usize_INR. cbn [unwrapped]. rewrite bind_Done. cbn [assert_ Nat.eqb]. rewrite bind_Done.
    rewrite !rd_at, !bind_Done by (fold n; lia). rewrite K2, hermite_catmull. rewrite Ej, Hg by done. unfold hermite_point.
    replace (Z.of_nat 0 - 1)%Z with (-1)%Z by lia. rewrite extended_before.
    rewrite (extended_in x 0) by lia. rewrite (extended_in x 1 : _ -> extended x (Z.of_nat 0 + 1) = _) by (fold n; lia). rewrite (extended_in x 2 : _ -> extended x (Z.of_nat 0 + 2) = _) by (fold n; lia). done. }
  rewrite bind_Done, (usub_Done (N + 1) (k + 1)) by lia. rewrite bind_Done. replace (N + 1 - (k + 1))%nat with ((n - 2) * k)%nat by lia.
  (* points in the middle *)
  match goal with |- context [fill_counting k _ ?st _] => destruct (fill_counting_spec k ((n - 2) * k) st g d1) as (d2 & -> & Hl2 & G2 & G2') end.
  { lia. }
  { intros j Hj. destruct (Hdiv j) as (i & r & Ej & Hr). assert (1 <= i /\ i + 2 < n)%nat as [Hi1 Hi2]. { split; nia. } destruct (place_at k j i r Hr Ej) as [K1 K2].
    cbv zeta. cbn [nadd nsub nmul ndiv Rnum ffloor Rrounding]. rewrite (Rfloor_unique _ i K1), to_usize_INR. cbn [unwrapped]. rewrite bind_Done, usub_Done by lia. rewrite bind_Done.
    rewrite !rd_at, !bind_Done by (fold n; lia). rewrite K2, hermite_catmull. rewrite Ej, Hg by done. unfold hermite_point.
    replace (Z.of_nat i - 1)%Z with (Z.of_nat (i - 1)) by lia. replace (Z.of_nat i + 1)%Z with (Z.of_nat (i + 1)) by lia. replace (Z.of_nat i + 2)%Z with (Z.of_nat (i + 2)) by lia.
    rewrite !extended_in by (fold n; lia). done. }
  rewrite bind_Done.
  (* last points *)
  match goal with |- context [fill_counting _ (N + 1) ?st _] => destruct (fill_counting_spec ((n - 2) * k) (N + 1) st g d2) as (d3 & -> & Hl3 & G3 & G3') end.
  { lia. }
  { intros j Hj. destruct (Hdiv j) as (i & r & Ej & Hr). destruct (place_at k j i r Hr Ej) as [K1 K2].
    assert (Hi : (i = n - 2 \/ (i = n - 1))%nat). { destruct (decide (i < n - 2)%nat); [nia|]. destruct (decide (n - 1 < i)%nat); [nia|]. lia. }
    cbv zeta. cbn [nadd nsub nmul ndiv Rnum ffloor Rrounding]. rewrite (Rfloor_unique _ i K1), to_usize_INR. cbn [unwrapped]. rewrite bind_Done.
    rewrite (proj2 (Nat.leb_le n (i + 2))) by lia. cbn [assert_]. rewrite bind_Done, (usub_Done i 1) by lia. rewrite bind_Done.
    rewrite (rd_at x (i - 1)), bind_Done by (fold n; lia). rewrite (rd_at x i), bind_Done by (fold n; lia). rewrite (usub_Done n 1), bind_Done by lia.
    rewrite K2, Ej, Hg by done. unfold hermite_point.
    replace (Z.of_nat i - 1)%Z with (Z.of_nat (i - 1)) by lia. rewrite (extended_in x (i - 1)), (extended_in x i) by (fold n; lia).
    destruct Hi as [Hi|Hi].
    - rewrite (proj2 (Nat.ltb_lt i (n - 1))) by lia. rewrite (rd_at x (i + 1)), bind_Done by (fold n; lia). rewrite (usub_Done n 2), bind_Done by lia.
      rewrite (proj2 (Nat.ltb_ge i (n - 2))) by lia. rewrite bind_Done, hermite_catmull.
      replace (Z.of_nat i + 1)%Z with (Z.of_nat (i + 1)) by lia. rewrite (extended_in x (i + 1)) by (fold n; lia).
      replace (Z.of_nat i + 2)%Z with (Z.of_nat n) by lia. unfold n. rewrite extended_end by (fold n; lia). fold n. replace (n - 1)%nat with (i + 1)%nat by lia. replace (n - 2)%nat with i by lia. done.
    - rewrite (proj2 (Nat.ltb_ge i (n - 1))) by lia. rewrite bind_Done, (usub_Done n 2), bind_Done by lia.
      rewrite (proj2 (Nat.ltb_ge i (n - 2))) by lia. rewrite bind_Done, hermite_catmull.
      replace (Z.of_nat i + 1)%Z with (Z.of_nat n) by lia. replace (Z.of_nat i + 2)%Z with (Z.of_nat n + 1)%Z by lia.
      unfold n. rewrite extended_end, extended_end2 by (fold n; lia). fold n. replace (n - 1)%nat with i by lia. replace (n - 2)%nat with (i - 1)%nat by lia.
      do 2 f_equal. ring. }
  rewrite bind_Done.
  destruct (trade_vdata b v d3 (N + 1)%nat Hb) as (v' & b' & E & Hv' & Hm); [lia|].
  destruct (trade b d3 (data v)) as [s b2]. apply pair_equal_spec in E as [E ->]. rewrite E.
  exists v', b', d3. split; [done|]. split_and!.
  - split; [|done]. destruct Hm as (_ & _ & Hns). unfold is_complex in *. by rewrite Hns.
  - done.
  - lia.
  - intros i r Hi Hr Hj. rewrite <- Hg by done.
    destruct (decide ((n - 2) * k <= i * k + r)%nat) as [H3|H3]; [apply G3; lia|]. rewrite G3' by lia.
    destruct (decide (k <= i * k + r)%nat) as [H2|H2]; [apply G2; lia|]. rewrite G2' by lia. apply G1. lia.
Qed.

Lemma extended_line x a c z : (2 <= length x)%nat -> (forall i, (i < length x)%nat -> x !! i = Some (a + c * INR i)) -> extended x z = a + c * IZR z.
Proof.
  intros Hn Hlin. assert (Hat : forall k, (0 <= k < Z.of_nat (length x))%Z -> default 0 (x !! Z.to_nat k) = a + c * IZR k).
  { intros k Hk. rewrite Hlin by lia. change (default ?aa (Some ?bb)) with bb. by rewrite INR_IZR_INZ, Z2Nat.id by lia. }
  unfold extended. destruct (z <? 0)%Z eqn:E1; [apply Z.ltb_lt in E1 | apply Z.ltb_ge in E1].
  - rewrite !Hat by lia. rewrite opp_IZR. ring.
  - destruct (z <? Z.of_nat (length x))%Z eqn:E2; [apply Z.ltb_lt in E2 | apply Z.ltb_ge in E2]; rewrite !Hat by lia; [done|].
    rewrite !minus_IZR. ring.
Qed.

Theorem interpolate_hermite_keeps b (v : dvec R) x k : reals v x -> (3 <= length x)%nat -> (0 < k)%nat -> lends b v ((length x - 1) * k + 1) ->
  exists v' b' y, interpolate_hermite b v (INR k) 0 = Done (v', b') /\ reals v' y /\ length y = ((length x - 1) * k + 1)%nat /\
    (forall i, (i < length x)%nat -> y !! (i * k)%nat = x !! i) /\
    (forall a c, (forall i, (i < length x)%nat -> x !! i = Some (a + c * INR i)) -> forall j, (j < length y)%nat -> y !! j = Some (a + c * (INR j / INR k))).
Proof.
  intros Hv Hn Hk Hb. destruct (interpolate_hermite_integer b v x k Hv Hn Hk Hb) as (v' & b' & y & E & Hy & _ & Hl & Hp).
  assert (Hk' : 0 < INR k) by (apply (lt_INR 0); done).
  exists v', b', y. split; [exact E|]. split; [exact Hy|]. split; [exact Hl|]. split.
  - intros i Hi. rewrite <- (Nat.add_0_r (i * k)), Hp by nia. unfold hermite_point. cbn [INR]. replace (0 / INR k) with 0 by (field; lra). rewrite catmull_start, extended_in by done.
    unfold at_. by destruct (lookup_lt_is_Some_2 x i Hi) as [z ->].
  - intros a c Hlin j Hj. pose proof (Nat.div_mod j k ltac:(lia)) as Hdm. pose proof (Nat.mod_upper_bound j k ltac:(lia)) as Hmod.
    set (i := (j / k)%nat) in *. set (r := (j mod k)%nat) in *. clearbody i r. replace j with (i * k + r)%nat in * by lia.
    rewrite Hp by (done || nia). unfold hermite_point. rewrite !(extended_line x a c) by (done || lia). rewrite !plus_IZR, minus_IZR, <- INR_IZR_INZ.
    f_equal. replace (a + c * (INR i - 1)) with ((a + c * INR i) - c) by ring. replace (a + c * (INR i + 1)) with ((a + c * INR i) + c) by ring.
    replace (a + c * (INR i + 2)) with ((a + c * INR i) + 2 * c) by ring. rewrite catmull_line, plus_INR, mult_INR. field. lra.
Qed.

(** Fewer than three samples: always a panic *)
Theorem interpolate_hermite_short b (v : dvec R) x k : reals v x -> (length x < 3)%nat -> (0 < k)%nat -> lends b v ((length x - 1) * k + 1) -> interpolate_hermite b v (INR k) 0 = Panicked.
Proof.
  intros [Hc Hv] Hn Hk Hb. unfold interpolate_hermite. pose proof (vdata_inv v x Hv) as (Hl & _ & _). unfold vdata in Hv. unfold len. rewrite Hv, Hl.
  destruct (decide (length x = 0)%nat) as [->|Hne]; [done|]. rewrite (interpolated_len_Done _ _ ((length x - 1) * k)); [|lia|rewrite <- mult_INR; apply Rround_INR]. rewrite bind_Done.
  destruct (borrow_lends (n0 : R) b v _ Hb) as (t & -> & Hlt). rewrite bind_Done, Hc, bind_Done.
  assert (Es : to_usize (fceil ((n1 - 0) * INR k)%num) = Some k).
  { cbn [fceil Rrounding nsub nmul n1 Rnum]. replace (- ((1 - 0) * INR k)) with (IZR (- Z.of_nat k)) by (rewrite opp_IZR, <- INR_IZR_INZ; ring).
    assert (Ef : Rfloor (IZR (- Z.of_nat k)) = IZR (- Z.of_nat k)) by (unfold Rfloor; f_equal; apply Int_part_unique; lra).
    rewrite Ef, <- opp_IZR, Z.opp_involutive, <- INR_IZR_INZ. apply to_usize_INR. }
  rewrite Es. cbn [unwrapped]. rewrite bind_Done. change (n0 : R) with (INR 0). rewrite (fill_counting_panics 0 k 0); [done | lia |].
  destruct (place_at k 0 0 0 Hk eq_refl) as [K1 _]. cbv zeta. cbn [nadd nsub nmul ndiv Rnum ffloor Rrounding]. rewrite (Rfloor_unique _ 0 K1), to_usize_INR. cbn [unwrapped]. rewrite bind_Done. cbn [assert_ Nat.eqb]. rewrite bind_Done.
  destruct (rd x 0); [|done]. rewrite bind_Done. destruct (rd x (0 + 1)); [|done]. rewrite bind_Done. unfold rd. rewrite lookup_ge_None_2 by lia. done.
Qed.

(** A last section which begins too early: the assertion fails. *)
Theorem interpolate_hermite_assertion b (v : dvec R) x f N st j : reals v x -> x <> [] -> 0 < f -> Rround (INR (length x - 1) * f) = INR N -> lends b v (N + 1) ->
  fceil f = INR st -> (N - st <= j <= N)%nat -> (st <= N)%nat -> INR j / f < INR (length x - 2) -> interpolate_hermite b v f 0 = Panicked.
Proof.
  intros [Hc Hv] Hx Hf Hr Hb Hs Hj HsN Hearly. assert (Hn : (0 < length x)%nat) by (destruct x; [done | cbn; lia]).
  unfold interpolate_hermite. pose proof (vdata_inv v x Hv) as (Hl & _ & _). unfold vdata in Hv. unfold len. rewrite Hv, Hl, (interpolated_len_Done _ _ N) by done. rewrite bind_Done.
  destruct (borrow_lends (n0 : R) b v _ Hb) as (t & -> & Hlt). rewrite bind_Done, Hc, bind_Done.
  replace ((n1 - 0) * f)%num with f by (cbn; ring). rewrite Hs, to_usize_INR. cbn [unwrapped]. rewrite bind_Done. change (n0 : R) with (INR 0).
  assert (Hstate : forall a c (step : R -> run R) d s, (a <= c)%nat -> fill_counting a c step (INR a, d) = Done s -> fst s = INR c).
  { intros a c step d s Hac. unfold fill_counting. destruct (slice (INR a, d).2 a c); [|done]. rewrite bind_Done. remember (c - a)%nat as n eqn:En. revert a d Hac En. induction n as [|n IH]; intros a d Hac En.
    - cbn [loop]. intros [= <-]. cbn [fst]. f_equal. lia.
    - cbn [loop]. destruct (step (INR a)) as [y|]; [|done]. rewrite bind_Done. destruct (wr d a y) as [d'|]; [|done]. rewrite !bind_Done.
      cbn [nadd n1 Rnum]. rewrite <- INR_1_add. apply IH; lia. }
  match goal with |- mbind ?k ?m = _ => destruct m as [s1|] eqn:E1; [|done] end. rewrite bind_Done, (usub_Done (N + 1) (st + 1)) by lia. rewrite bind_Done.
  apply Hstate in E1; [|lia]. destruct s1 as [i1 d1]. cbn [fst] in E1. subst i1.
  destruct (decide (st <= N + 1 - (st + 1))%nat) as [Hle|Hgt].
  2:{ match goal with |- mbind ?k ?m = _ => assert (Em : m = Panicked) end.
      { unfold fill_counting, slice. rewrite (proj2 (Nat.leb_gt st (N + 1 - (st + 1)))) by lia. done. }
      rewrite Em. done. }
  match goal with |- mbind ?k ?m = _ => destruct m as [s2|] eqn:E2; [|done] end. rewrite bind_Done. apply Hstate in E2; [|lia]. destruct s2 as [i2 d2]. cbn [fst] in E2. subst i2.
  rewrite (fill_counting_panics _ (N + 1) j); [done | lia |].
  cbv zeta. cbn [nadd nsub nmul ndiv Rnum ffloor Rrounding].
  assert (Ht : 0 <= INR j / f + 0). { rewrite Rplus_0_r. apply Rmult_le_pos; [apply pos_INR|]. by left; apply Rinv_0_lt_compat. }
  destruct (Rfloor_nat _ Ht) as (p & -> & H1). rewrite to_usize_INR. cbn [unwrapped]. rewrite bind_Done.
  assert (Hp : (p < length x - 2)%nat) by (apply INR_lt; lra). rewrite (proj2 (Nat.leb_gt _ _)) by lia. done.
Qed.
End hermite.
