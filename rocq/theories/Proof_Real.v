(** [wrap] and [unwrap]. *)
From Verif Require Export Spec_Real Proof_ComplexMath.

Section unwrap.
Context {A : Type} `{Num A} `{Rem A}.

(** One step of [unwrap] *)
Definition unwrap1 (d y x : A) : A :=
  let diff := (x - y)%num in
  if nltb (d / nofnat 2)%num diff then (y + (frem diff d - d))%num
  else if nltb diff (nopp (d / nofnat 2)%num) then (y + (frem diff d + d))%num else x.
Fixpoint unwrap_list (d y : A) (l : list A) : list A :=
  match l with [] => [] | x :: l => unwrap1 d y x :: unwrap_list d (unwrap1 d y x) l end.

Lemma unwrap_loop d (rest : list A) : forall l pre y,
  loop (length l) (length pre + 1) (fun j l =>
          x ← rd l j;
          y ← rd l (j - 1);
          let diff := (x - y)%num in
          if nltb (d / nofnat 2)%num diff then wr l j (y + (frem diff d - d))%num
          else if nltb diff (nopp (d / nofnat 2)%num) then wr l j (y + (frem diff d + d))%num
          else Done l) (pre ++ y :: l ++ rest) = Done (pre ++ y :: unwrap_list d y l ++ rest).
Proof.
  induction l as [|x l IH]; intros pre y; [done|]. cbn [length loop app unwrap_list].
  assert (Hx : (pre ++ y :: x :: l ++ rest) !! (length pre + 1) = Some x).
  { rewrite lookup_app_r by lia. by replace (length pre + 1 - length pre) with 1 by lia. }
  assert (Hy : (pre ++ y :: x :: l ++ rest) !! (length pre + 1 - 1) = Some y).
  { rewrite lookup_app_r by lia. by replace (length pre + 1 - 1 - length pre) with 0 by lia. }
  rewrite (proj2 (rd_Done _ _ _) Hx), bind_Done, (proj2 (rd_Done _ _ _) Hy), bind_Done. cbv zeta.
  assert (Hw : forall z, wr (pre ++ y :: x :: l ++ rest) (length pre + 1) z = Done ((pre ++ [y]) ++ z :: l ++ rest)).
  { intros z. rewrite wr_Done by (rewrite app_length; simpl; lia). f_equal. rewrite insert_app_r_alt by lia.
    replace (length pre + 1 - length pre) with 1 by lia. by rewrite <- app_assoc. }
  assert (Hlen : length pre + 1 + 1 = length (pre ++ [y]) + 1) by (rewrite app_length; simpl; lia).
  rewrite Hlen. change (pre ++ y :: x :: l ++ rest) with (pre ++ [y] ++ x :: l ++ rest) in Hw |- *.
  unfold unwrap1. destruct (nltb (d / nofnat 2)%num (x - y)%num).
  - rewrite Hw, bind_Done, IH. by rewrite <- app_assoc.
  - destruct (nltb (x - y)%num (nopp (d / nofnat 2)%num)).
    + rewrite Hw, bind_Done, IH. by rewrite <- app_assoc.
    + rewrite bind_Done, app_assoc, IH. by rewrite <- app_assoc.
Qed.

Theorem unwrap_spec (d : A) (v : dvec A) l : reals v l ->
  exists v', unwrap d v = Done v' /\ reals v' (match l with [] => [] | x :: l => x :: unwrap_list d x l end) /\ same_meta v v' /\ same_rest v v'.
Proof.
  intros [Hc Hv]. destruct (vdata_split v l Hv) as (rest & He & Hn). unfold unwrap. rewrite Hc. cbv zeta. unfold len. rewrite Hn, He.
  assert (Hul : forall l y, length (unwrap_list d y l) = length l) by (intros l0; induction l0; intros; simpl; congruence).
  destruct l as [|x l].
  - simpl. eexists. split; [reflexivity|]. destruct (set_elems_after v [] [] rest He Hn eq_refl) as (V1 & V2 & V3). split; [split; done|done].
  - replace (length (x :: l) - 1) with (length l) by (simpl; lia). pose proof (unwrap_loop d rest l [] x) as Hloop. cbn [length plus app] in Hloop. cbn [app]. rewrite Hloop, bind_Done.
    eexists. split; [reflexivity|]. destruct (set_elems_after v (x :: l) (x :: unwrap_list d x l) rest He Hn) as (V1 & V2 & V3).
    { simpl. by rewrite Hul. } split; [split; done|done].
Qed.
End unwrap.

Local Open Scope R_scope.

Lemma Int_part_unique x n : IZR n <= x < IZR n + 1 -> n = Int_part x.
Proof. intros Hn. unfold Int_part. assert (n + 1 = up x)%Z as <-; [|lia]. apply up_tech; [lra|]. rewrite plus_IZR. lra. Qed.

Lemma Rtrunc_pos x n : 0 <= x -> IZR n <= x < IZR n + 1 -> Rtrunc x = n.
Proof. intros Hx Hn. unfold Rtrunc. destruct (Rlt_dec x 0); [lra|]. symmetry. apply Int_part_unique. lra. Qed.
Lemma Rtrunc_neg x n : x < 0 -> IZR n - 1 < x <= IZR n -> Rtrunc x = n.
Proof.
  intros Hx Hn. unfold Rtrunc. destruct (Rlt_dec x 0); [|lra]. assert ((- n)%Z = Int_part (- x)) as <-; [|lia].
  apply Int_part_unique. rewrite opp_IZR. lra.
Qed.

(** The step [unwrap] takes from [y] to the wrapped value of something that lies [s + k d] further. *)
Lemma unwrap1_cases d y w s k : 0 < d -> Rabs s < d / 2 -> w - y = s - d * IZR k ->
  unwrap1 d y w = if (k =? 0)%Z then y + s else if (k <? 0)%Z then (if Rlt_dec s 0 then y + s else y + s - d) else (if Rlt_dec 0 s then y + s else y + s + d).
Proof.
  intros Hd Hs Hw. apply Rabs_def2 in Hs. unfold unwrap1. cbn [nltb Rnum ndiv nofnat nsub nadd nopp frem Rrem]. change (INR 2) with (1 + 1). rewrite Hw.
  assert (Hdiv : (s - d * IZR k) / d = s / d - IZR k) by (field; lra).
  assert (Hsd : - (1 / 2) < s / d < 1 / 2).
  { split; apply (Rmult_lt_reg_r d); try lra; unfold Rdiv; rewrite (Rmult_assoc s), Rinv_l by lra; lra. }
  assert (Hsgn : (s < 0 -> s / d < 0) /\ (0 <= s -> 0 <= s / d) /\ (0 < s -> 0 < s / d) /\ (s <= 0 -> s / d <= 0)).
  { assert (0 < / d) by (by apply Rinv_0_lt_compat). unfold Rdiv. split_and!; intros; nra. }
  destruct Hsgn as (S1 & S2 & S3 & S4). unfold Rltb.
  destruct (Z.eqb_spec k 0) as [->|Hk].
  { destruct (Rlt_dec _ _); [lra|]. destruct (Rlt_dec _ _); lra. }
  destruct (Z.ltb_spec k 0) as [Hk'|Hk'].
  - assert (Hk1 : IZR k <= -1) by (apply IZR_le; lia). assert (Hm : d * IZR k <= - d) by nra.
    destruct (Rlt_dec _ _) as [_|]; [|lra].
    destruct (Rlt_dec s 0) as [Hn|Hn].
    + rewrite (Rtrunc_pos _ (- k - 1)); rewrite ?Hdiv, ?minus_IZR, ?opp_IZR; specialize (S1 Hn); lra.
    + rewrite (Rtrunc_pos _ (- k)); rewrite ?Hdiv, ?opp_IZR; specialize (S2 ltac:(lra)); lra.
  - assert (Hk1 : 1 <= IZR k) by (apply IZR_le; lia). assert (Hm : d <= d * IZR k) by nra.
    destruct (Rlt_dec _ _) as [|_]; [lra|]. destruct (Rlt_dec _ _) as [_|]; [|lra].
    destruct (Rlt_dec 0 s) as [Hn|Hn].
    + rewrite (Rtrunc_neg _ (- (k - 1))); rewrite ?Hdiv, ?opp_IZR, ?minus_IZR; specialize (S3 Hn); lra.
    + rewrite (Rtrunc_neg _ (- k)); rewrite ?Hdiv, ?opp_IZR; specialize (S4 ltac:(lra)); lra.
Qed.

Lemma unwrap_wrap_list d (x0 : R) : 0 < d -> forall l a,
  small_steps d (a :: l) ->
  unwrap_list d (a - d * IZR (turns d x0)) (map (fun x => frem x d) l) = map (fun x => x - d * IZR (turns d x0)) l <-> leads_away d x0 (a :: l).
Proof.
  intros Hd. induction l as [|b l IH]; intros a Hs.
  { split; [|done]. intros _ j a' b' _ Hb. by destruct j. }
  pose proof (Hs 0%nat a b eq_refl eq_refl) as Hab.
  assert (Hs' : small_steps d (b :: l)) by (intros j a' b' H1 H2; exact (Hs (S j) a' b' H1 H2)).
  cbn [map unwrap_list]. set (K := turns d x0). set (k := (turns d b - K)%Z).
  rewrite (unwrap1_cases d _ _ (b - a) k Hd Hab).
  2:{ cbn [frem Rrem]. fold (turns d b). unfold k. rewrite minus_IZR. lra. }
  assert (Hok : a - d * IZR K + (b - a) = b - d * IZR K) by lra.
  assert (Hcons : leads_away d x0 (a :: b :: l) <-> (((turns d x0 < turns d b)%Z -> a < b) /\ ((turns d b < turns d x0)%Z -> b < a)) /\ leads_away d x0 (b :: l)).
  { split.
    - intros Hl. split; [exact (Hl 0%nat a b eq_refl eq_refl)|]. intros j a' b' H1 H2. exact (Hl (S j) a' b' H1 H2).
    - intros [H0 Hl] [|j] a' b' H1 H2; [simpl in H1, H2; by injection H1 as <-; injection H2 as <-|]. exact (Hl j a' b' H1 H2). }
  rewrite Hcons. unfold k. clear Hcons.
  destruct (Z.eqb_spec (turns d b - K) 0) as [E|E].
  { rewrite Hok. specialize (IH b Hs'). fold K in IH. rewrite <- IH. split.
    - intros E'. injection E' as E'. split; [|done]. split; intros; unfold K in *; lia.
    - intros [_ ->]. done. }
  destruct (Z.ltb_spec (turns d b - K) 0) as [E1|E1].
  - destruct (Rlt_dec (b - a) 0) as [Hn|Hn].
    + rewrite Hok. specialize (IH b Hs'). fold K in IH. rewrite <- IH. split.
      * intros E'. injection E' as E'. split; [|done]. split; intros; [unfold K in *; lia|lra].
      * intros [_ ->]. done.
    + split.
      * intros E'. injection E' as E' _. exfalso. lra.
      * intros [[_ H2] _]. exfalso. specialize (H2 ltac:(unfold K in *; lia)). lra.
  - destruct (Rlt_dec 0 (b - a)) as [Hn|Hn].
    + rewrite Hok. specialize (IH b Hs'). fold K in IH. rewrite <- IH. split.
      * intros E'. injection E' as E'. split; [|done]. split; intros; [lra|unfold K in *; lia].
      * intros [_ ->]. done.
    + split.
      * intros E'. injection E' as E' _. exfalso. lra.
      * intros [[H2 _] _]. exfalso. specialize (H2 ltac:(unfold K in *; lia)). lra.
Qed.

Lemma frem_turns d x : frem x d = x - d * IZR (turns d x).
Proof. done. Qed.

(** [unwrap] after [wrap] gives the data back, up to the turns of the first value, exactly if every step outside of the first turn leads away from it. *)
Theorem unwrap_wrap s sched d (v : dvec R) x0 l : 0 < d -> reals v (x0 :: l) -> small_steps d (x0 :: l) ->
  exists v1 v2, wrap s sched d v = Done v1 /\ unwrap d v1 = Done v2 /\ same_meta v v2 /\ same_rest v v2 /\
    (reals v2 (map (fun x => x - d * IZR (turns d x0)) (x0 :: l)) <-> leads_away d x0 (x0 :: l)).
Proof.
  intros Hd Hv Hs. pose proof Hv as [Hc Hvd]. unfold wrap. rewrite Hc.
  destruct (pure_real_operation_spec s sched (fun x => frem x d) Small v (x0 :: l) Hvd) as (v1 & E1 & D1 & M1 & R1); [by left|].
  assert (Hv1 : reals v1 (map (fun x => frem x d) (x0 :: l))) by (split; [by rewrite (meta_is_complex v v1 M1)|done]).
  destruct (unwrap_spec d v1 _ Hv1) as (v2 & E2 & D2 & M2 & R2). cbn [map] in D2.
  exists v1, v2. split_and!; try done.
  - destruct M1 as (? & ? & ?), M2 as (? & ? & ?). split_and!; congruence.
  - destruct R1 as (? & ? & ? & ?), R2 as (? & ? & ? & ?). unfold same_rest. split_and!; congruence.
  - rewrite <- (unwrap_wrap_list d x0 Hd l x0 Hs). rewrite <- frem_turns. destruct D2 as [C2 D2]. split.
    + intros [_ D3]. rewrite D2 in D3. injection D3. done.
    + intros E. split; [done|]. rewrite D2. cbn [map]. by rewrite E.
Qed.

Lemma turns_mono d x y : 0 < d -> x <= y -> (turns d x <= turns d y)%Z.
Proof.
  intros Hd Hxy. assert (Hq : x / d <= y / d). { unfold Rdiv. apply Rmult_le_compat_r; [|done]. left. by apply Rinv_0_lt_compat. }
  unfold turns, Rtrunc. generalize dependent (x / d). generalize (y / d). clear. intros y x Hxy.
  destruct (base_Int_part x) as [X1 X2], (base_Int_part y) as [Y1 Y2], (base_Int_part (- x)) as [X3 X4], (base_Int_part (- y)) as [Y3 Y4].
  destruct (Rlt_dec x 0), (Rlt_dec y 0); try lra.
  - enough (Int_part (- y) < Int_part (- x) + 1)%Z by lia. apply lt_IZR. rewrite plus_IZR. lra.
  - enough (- 1 < Int_part (- x))%Z. { enough (-1 < Int_part y)%Z by lia. apply lt_IZR. lra. } apply lt_IZR. lra.
  - enough (Int_part x < Int_part y + 1)%Z by lia. apply lt_IZR. rewrite plus_IZR. lra.
Qed.

Lemma from_first (P : R -> R -> Prop) : (forall a, P a a) -> (forall a b c, P a b -> P b c -> P a c) -> forall l x0,
  (forall j a b, (x0 :: l) !! j = Some a -> (x0 :: l) !! (j + 1)%nat = Some b -> P a b) -> forall j b, (x0 :: l) !! j = Some b -> P x0 b.
Proof.
  intros Hr Ht l x0 Hl. induction j as [|j IH]; intros b Hb; [injection Hb as <-; done|].
  destruct (lookup_lt_is_Some_2 (x0 :: l) j) as [a Ha]. { apply lookup_lt_Some in Hb. lia. }
  apply (Ht _ a); [by apply IH|]. apply (Hl j); [done|]. by rewrite Nat.add_1_r.
Qed.

Lemma rising_leads_away d x0 l : 0 < d -> rising (x0 :: l) -> leads_away d x0 (x0 :: l).
Proof.
  intros Hd Hr j a b Ha Hb. split; [intros _; by apply (Hr j)|]. intros Hlt. exfalso.
  assert (x0 <= b). { apply (from_first Rle) with (l := l) (j := (j + 1)%nat); [intros; lra|intros; lra| |done]. intros i c e Hc He. left. by apply (Hr i). }
  pose proof (turns_mono d x0 b Hd ltac:(done)). lia.
Qed.
Lemma falling_leads_away d x0 l : 0 < d -> falling (x0 :: l) -> leads_away d x0 (x0 :: l).
Proof.
  intros Hd Hr j a b Ha Hb. split; [|intros _; by apply (Hr j)]. intros Hlt. exfalso.
  assert (b <= x0). { apply (from_first Rge) with (l := l) (j := (j + 1)%nat) (b := b) in Hb; [lra|intros; lra|intros; lra|]. intros i c e Hc He. left. by apply (Hr i). }
  pose proof (turns_mono d b x0 Hd ltac:(done)). lia.
Qed.
Lemma inside_leads_away d x0 l : 0 < d -> (forall x, x ∈ x0 :: l -> Rabs x < d) -> leads_away d x0 (x0 :: l) /\ turns d x0 = 0%Z.
Proof.
  intros Hd Hin. assert (Ht : forall x, x ∈ x0 :: l -> turns d x = 0%Z).
  { intros x Hx. specialize (Hin x Hx). apply Rabs_def2 in Hin. unfold turns. 
    assert (Hq : -1 < x / d < 1). { split; apply (Rmult_lt_reg_r d); try lra; unfold Rdiv; rewrite (Rmult_assoc x), Rinv_l by lra; lra. }
    destruct (Rlt_dec (x / d) 0); [apply Rtrunc_neg | apply Rtrunc_pos]; lra. }
  split; [|apply Ht; left]. intros j a b Ha Hb. rewrite (Ht x0), (Ht b); [lia| |left]. by apply elem_of_list_lookup_2 in Hb.
Qed.
