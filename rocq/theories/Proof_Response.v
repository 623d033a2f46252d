From Verif Require Export Proof_Window NumsTrig.
From stdpp Require Import list_numbers.
Local Open Scope nat_scope.

Lemma imap_take {A B} (f : nat -> A -> B) n l : imap f (take n l) = take n (imap f l).
Proof.
  apply list_eq. intros i. rewrite list_lookup_imap. destruct (decide (i < n)) as [Hi|Hi].
  - by rewrite !lookup_take, list_lookup_imap by lia.
  - by rewrite !lookup_take_ge by lia.
Qed.
Lemma imap_drop {A B} (f : nat -> A -> B) n l : imap (fun i => f (n + i)) (drop n l) = drop n (imap f l).
Proof.
  apply list_eq. intros i. by rewrite list_lookup_imap, !lookup_drop, list_lookup_imap.
Qed.

Section closure.
Context {TT : Type} (mul : TT -> TT -> TT).

Lemma catch_up_none (g : R -> TT -> TT) l j b : ~ (j < b)%R -> catch_up g l j b = Done ([], l, j).
Proof. intros Hj. apply Rltb_false in Hj. destruct l; cbn [catch_up nltb Rnum]; by rewrite Hj. Qed.

Lemma catch_up_spec (g : R -> TT -> TT) l j b d : (b = j + INR d)%R -> d <= length l ->
  catch_up g l j b = Done (imap (fun i => g (j + INR i)%R) (take d l), drop d l, b).
Proof.
  revert l j. induction d as [|d IH]; intros l j Hb Hd.
  - simpl in Hb. rewrite catch_up_none by lra. rewrite drop_0. do 2 f_equal. lra.
  - destruct l as [|x l]; [simpl in Hd; lia|]. rewrite S_INR in Hb. pose proof (pos_INR d).
    cbn [catch_up]. replace (nltb j b) with true by (symmetry; apply Rltb_true; lra).
    rewrite (IH l (j + n1)%num); [|cbn [nadd n1 Rnum]; lra | simpl in Hd; lia]. rewrite bind_Done. cbn [take drop]. rewrite imap_cons.
    do 2 f_equal. f_equal. f_equal.
    + f_equal. simpl. lra.
    + apply imap_ext. intros i y _. unfold compose. f_equal. rewrite S_INR. cbn [nadd n1 Rnum]. lra.
Qed.

Lemma common_part_spec (g : R -> TT -> TT) l1 l2 j :
  let m := Nat.min (length l1) (length l2) in
  common_part g l1 l2 j =
  (imap (fun i => g (j + INR i)%R) (take m l1), drop m l1, imap (fun i => g (j + INR i)%R) (take m l2), drop m l2, (j + INR m)%R).
Proof.
  revert l2 j. induction l1 as [|x l1 IH]; intros l2 j; [simpl; rewrite drop_0; do 2 f_equal; lra|].
  destruct l2 as [|y l2]; [simpl; do 2 f_equal; lra|].
  cbn [common_part length Nat.min]. rewrite IH. cbn [take drop]. rewrite !imap_cons.
  assert (Hi : forall l, imap (fun i => g ((j + n1)%num + INR i)%R) l = imap ((fun i => g (j + INR i)%R) ∘ S) l).
  { intros l. apply imap_ext. intros i z _. unfold compose. f_equal. rewrite S_INR. cbn [nadd n1 Rnum]. lra. }
  rewrite !Hi. assert (E : (j + INR 0)%R = j) by (simpl; lra). rewrite E. f_equal. rewrite S_INR. cbn [nadd n1 Rnum]. lra.
Qed.

Lemma ascending_spec (g : R -> TT -> TT) l j : ascending g l j = imap (fun i => g (j + INR i)%R) l.
Proof.
  revert j. induction l as [|x l IH]; intros j; [done|]. cbn [ascending]. rewrite IH, imap_cons. f_equal; [f_equal; simpl; lra|].
  apply imap_ext. intros i z _. unfold compose. f_equal. rewrite S_INR. cbn [nadd n1 Rnum]. lra.
Qed.

Hypothesis mul_assoc : forall x y z, mul (mul x y) z = mul x (mul y z).

Lemma imap_split2 {B} (f : nat -> TT -> B) a b (l : list TT) :
  imap f (take a l) ++ imap (fun i => f (a + i)) (take b (drop a l)) ++ imap (fun i => f (a + b + i)) (drop b (drop a l)) = imap f l.
Proof.
  rewrite drop_drop, !imap_take, (imap_drop f (a + b)). rewrite (imap_drop f a), <- (drop_drop (imap f l)), take_drop. apply take_drop.
Qed.

Lemma closure_spec shifted ratio (scale : TT) fun_ n a1 r1 a2 r2 i1 e :
  let center := (INR (n - n mod 2) / 2)%R in
  let F := fun x => mul scale (fun_ (fft_swap_x shifted x center * ratio)%num) in
  let j1 := (- center + INR (fst r1))%R in
  let j2 := (center - INR (snd r2 - 1))%R in
  length a2 <= length a1 -> snd r1 <= fst r2 -> 1 <= snd r2 -> i1 <= 1 -> i1 <= length a1 -> e <= length a2 -> (i1 = 0 \/ e = 0) ->
  (j1 + INR i1 = j2 + INR e)%R ->
  response_closure mul shifted ratio scale fun_ n a1 r1 a2 r2 =
  Done (imap (fun i x => mul x (F (j1 + INR i)%R)) a1, imap (fun i x => mul x (F (j2 + INR (length a2 - 1 - i)%nat)%R)) a2).
Proof.
  intros center F j1 j2 Hl Hr Hr2 Hi1 Hi1' He Hie Hj. unfold response_closure.
  rewrite (proj2 (Nat.leb_le _ _) Hl), (proj2 (Nat.leb_le _ _) Hr). cbn [assert_]. rewrite !bind_Done.
  rewrite usub_Done by lia. rewrite bind_Done. cbv zeta.
  set (alone := fun (j : R) (x : TT) => mul (mul x scale) _).
  set (together := fun (j : R) (x : TT) => mul x _).
  change (nopp (nofnat (n - n mod 2) / nofnat 2)%num + nofnat (fst r1))%num with j1.
  change (nofnat (n - n mod 2) / nofnat 2 - nofnat (snd r2 - 1))%num with j2.
  assert (Ht : forall j x, together j x = mul x (F j)) by done.
  assert (Ha : forall j x, alone j x = mul x (F j)) by (intros; apply mul_assoc).
  assert (C1 : catch_up alone a1 j1 j2 = Done (imap (fun i => alone (j1 + INR i)%R) (take i1 a1), drop i1 a1, (j1 + INR i1)%R)).
  { destruct (decide (e = 0)) as [->|Hne].
    - rewrite (catch_up_spec alone a1 j1 j2 i1); [|simpl in Hj; lra | done]. do 2 f_equal. simpl in Hj. lra.
    - assert (i1 = 0) as -> by lia. rewrite catch_up_none; [rewrite drop_0; do 2 f_equal; simpl; lra|]. simpl in Hj. pose proof (pos_INR e). lra. }
  rewrite C1, bind_Done.
  rewrite (catch_up_spec alone (rev a2) j2 (j1 + INR i1)%R e); [|done | by rewrite rev_length]. rewrite bind_Done.
  rewrite common_part_spec. set (m := Nat.min _ _). rewrite !ascending_spec.
  assert (Hm : m = Nat.min (length a1 - i1) (length a2 - e)) by (subst m; by rewrite !drop_length, rev_length). clearbody m.
  assert (Eqa1 : imap (fun i => alone (j1 + INR i)%R) (take i1 a1) ++ imap (fun i => together (j1 + INR i1 + INR i)%R) (take m (drop i1 a1)) ++
     imap (fun i => alone (j1 + INR i1 + INR m + INR i)%R) (drop m (drop i1 a1)) = imap (fun i x => mul x (F (j1 + INR i)%R)) a1).
  { rewrite <- (imap_split2 (fun i x => mul x (F (j1 + INR i)%R)) i1 m a1). f_equal; [apply imap_ext; intros; apply Ha|]. f_equal.
    - apply imap_ext. intros i x _. rewrite Ht. do 2 f_equal. rewrite plus_INR. lra.
    - apply imap_ext. intros i x _. rewrite Ha. do 2 f_equal. rewrite !plus_INR. lra. }
  rewrite Eqa1. f_equal. f_equal.
  rewrite <- (rev_imap (fun i x => mul x (F (j2 + INR i)%R)) a2).
  assert (Hlast : imap (fun i => alone (j1 + INR i1 + INR m + INR i)%R) (rev (drop m (drop e (rev a2)))) =
                  rev (imap (fun i x => mul x (F (j2 + INR (e + m + i))%R)) (drop m (drop e (rev a2))))).
  { assert (Hle : length (drop m (drop e (rev a2))) <= 1) by (rewrite !drop_length, rev_length; lia).
    destruct (drop m (drop e (rev a2))) as [|x [|]]; [done | | simpl in Hle; lia]. simpl. rewrite Ha. do 3 f_equal.
    rewrite Nat.add_0_r, plus_INR. lra. }
  rewrite Hlast, <- rev_app_distr. f_equal.
  rewrite <- (imap_split2 (fun i x => mul x (F (j2 + INR i)%R)) e m (rev a2)). rewrite <- app_assoc. f_equal; [apply imap_ext; intros; apply Ha|]. f_equal.
  apply imap_ext. intros i x _. rewrite Ht. do 2 f_equal. rewrite plus_INR. lra.
Qed.

Lemma pieces_size s n : enough_pieces s n -> exists k cs, threads s n = k /\ 0 < k /\ calc_chunk_size n 1 (2 * k) = Done cs /\
  (2 * k - 1) * cs < n <= 2 * k * cs /\ 0 < cs.
Proof.
  intros (Hk & cs & H1 & H2 & H3). exists (threads s n), cs. split_and!; try done; [|nia].
  apply calc_chunk_size_unique; [lia | lia | apply Nat.mod_1_r | nia |]. intros c _ Hc. apply H3. nia.
Qed.

(** [i] points behind the first point on an axis whose zero is in the middle *)
Definition place (n i : nat) : R := (- (INR (n - n mod 2) / 2) + INR i)%R.

Lemma mod2_cases n : n mod 2 = 0 \/ n mod 2 = 1.
Proof. pose proof (Nat.mod_upper_bound n 2). lia. Qed.

Theorem multiply_function_folded shifted ratio (scale : TT) fun_ s sched p (l : list TT) :
  let n := length l in
  let center := (INR (n - n mod 2) / 2)%R in
  let F := fun x => mul scale (fun_ (fft_swap_x shifted x center * ratio)%num) in
  enough_pieces s n -> exists h, n <= 2 * h /\ h < n /\ (pairs_up s n -> 2 * h <= n + 1) /\
  multiply_function_points mul true shifted ratio scale fun_ s sched p l =
    Done (imap (fun i x => mul x (F (if i <? h then place n i else - place n i)%R)) l).
Proof.
  intros n center F Hp. destruct (pieces_size _ _ Hp) as (k & cs & Hk & Hk0 & Hc & [Hl Hl'] & Hcs).
  exists (k * cs). assert (Hkk : (2 * k - 1) * cs = k * cs + (k - 1) * cs) by nia.
  split_and!; [nia | nia | |].
  { intros [[Ht _]|(_ & Hn0 & Hm0)].
    2: { rewrite Hk in Hm0. apply Nat.div_exact in Hm0; [|lia]. set (q := n / (2 * k)) in *.
         assert (Hx : calc_chunk_size n 1 (2 * k) = Done q) by (apply calc_chunk_size_unique; [lia | nia | apply Nat.mod_1_r | nia | intros; nia]).
         rewrite Hx in Hc. injection Hc as <-. nia. }
    assert (k = 1) as -> by lia. destruct Hp as (_ & cs' & Hq1 & Hq2 & Hq3). rewrite Ht in *.
    assert (Hx : calc_chunk_size n 1 (2 * 1) = Done cs') by (apply calc_chunk_size_unique; [lia | lia | apply Nat.mod_1_r | lia | intros; apply Hq3; lia]).
    rewrite Hx in Hc. injection Hc as ->. pose proof (Nat.div_mod (n + 1) 2). pose proof (Nat.mod_upper_bound (n + 1) 2).
    pose proof (Hq3 ((n + 1) / 2)). lia. }
  unfold multiply_function_points. cbn [negb]. fold n.
  apply (sym_pairs_spec Medium s l _ (fun i x => mul x (F (if i <? k * cs then place n i else - place n i)%R)) k cs); [by rewrite threads_eq | done | done | done |].
  fold n. intros j Hj. cbv zeta. set (m := 2 * k - 1 - j). set (D := 2 * k * cs - n).
  assert (Hm : (j + 1) * cs <= m * cs) by (apply Nat.mul_le_mono_r; lia).
  assert (Hm' : m * cs <= (2 * k - 1) * cs) by (apply Nat.mul_le_mono_r; lia).
  assert (Hjk : (j + 1) * cs <= k * cs) by (apply Nat.mul_le_mono_r; lia).
  assert (Hmk : k * cs <= m * cs) by (apply Nat.mul_le_mono_r; lia).
  assert (Hmj : m * cs + (j + 1) * cs = 2 * k * cs) by (rewrite <- Nat.mul_add_distr_r; f_equal; lia).
  assert (HD : D < cs) by (subst D; rewrite Nat.mul_sub_distr_r in Hl; lia).
  assert (L1 : length (take cs (drop (j * cs) l)) = cs) by (rewrite take_length, drop_length; fold n; nia).
  assert (L2 : length (take cs (drop (m * cs) l)) = Nat.min cs (n - m * cs)) by (by rewrite take_length, drop_length).
  set (e2 := if j =? 0 then n else (m + 1) * cs).
  assert (He2 : e2 = m * cs + Nat.min cs (n - m * cs)).
  { subst e2. destruct (j =? 0) eqn:E; [apply Nat.eqb_eq in E; subst j | apply Nat.eqb_neq in E]; [nia|].
    assert ((m + 1) * cs <= (2 * k - 1) * cs) by (apply Nat.mul_le_mono_r; lia). nia. }
  assert (Hoff : n mod 2 <= n) by (apply Nat.mod_le; lia).
  pose (d := if j =? 0 then 0 else D).
  assert (Hd : n + d = j * cs + e2).
  { subst d e2. destruct (j =? 0) eqn:E; [apply Nat.eqb_eq in E; lia|]. subst D. nia. }
  assert (HdD : d <= D) by (subst d; destruct (j =? 0); lia).
  assert (Hdm : d = 0 \/ Nat.min cs (n - m * cs) = cs).
  { subst d. destruct (j =? 0) eqn:E; [by left|right]. apply Nat.eqb_neq in E.
    assert ((m + 1) * cs <= (2 * k - 1) * cs) by (apply Nat.mul_le_mono_r; lia). nia. }
  rewrite (closure_spec shifted ratio scale fun_ n _ _ _ _ (if d =? 0 then 1 - n mod 2 else 0) (d + n mod 2 - 1)); cbn [fst snd].
  - f_equal. f_equal.
    + apply imap_ext. intros i x Hi. apply lookup_lt_Some in Hi. rewrite L1 in Hi.
      replace (j * cs + i <? k * cs) with true by (symmetry; apply Nat.ltb_lt; lia). unfold F, place. do 5 f_equal. rewrite plus_INR. fold n center. lra.
    + apply imap_ext. intros i x Hi. apply lookup_lt_Some in Hi. rewrite L2 in Hi |- *.
      replace (m * cs + i <? k * cs) with false by (symmetry; apply Nat.ltb_ge; lia). unfold F, place. do 5 f_equal. fold n center.
      rewrite <- !minus_INR || idtac.
      assert (E : (e2 - 1) = (Nat.min cs (n - m * cs) - 1 - i) + (m * cs + i)) by lia. rewrite E, plus_INR. lra.
  - lia.
  - nia.
  - lia.
  - destruct (d =? 0); lia.
  - destruct (d =? 0); lia.
  - lia.
  - destruct (d =? 0) eqn:E; [apply Nat.eqb_eq in E|]; destruct (mod2_cases n) as [E0|E0]; rewrite E0; lia.
  - rewrite (minus_INR e2 1) by lia. assert (Hd' : (INR n + INR d = INR (j * cs) + INR e2)%R) by (rewrite <- !plus_INR; f_equal; lia).
    rewrite (minus_INR n) by done. destruct (mod2_cases n) as [E0|E0]; rewrite E0.
    + destruct (d =? 0) eqn:E; [apply Nat.eqb_eq in E|apply Nat.eqb_neq in E].
      * rewrite E in *. simpl in *. lra.
      * rewrite Nat.add_0_r, minus_INR by lia. simpl (INR 0). simpl (INR 1). lra.
    + rewrite Nat.add_sub. destruct (d =? 0) eqn:E; [apply Nat.eqb_eq in E|apply Nat.eqb_neq in E]; simpl (INR 0); simpl (INR 1); cbn [Nat.sub INR]; try rewrite E in *; simpl (INR 0) in *; lra.
Qed.

Theorem multiply_function_plain shifted ratio (scale : TT) fun_ s sched (l : list TT) :
  let n := length l in
  let center := (INR (n - n mod 2) / 2)%R in
  let F := fun x => mul scale (fun_ (fft_swap_x shifted x center * ratio)%num) in
  l <> [] \/ no_threads_for_nothing Medium s ->
  multiply_function_points mul false shifted ratio scale fun_ s sched n l = Done (imap (fun i x => mul x (F (place n i))) l).
Proof.
  intros n center F Hs. unfold multiply_function_points. cbn [negb]. cbv zeta.
  assert (Ho : (if negb (n mod 2 =? 0) then 1 else 0) = n mod 2) by (destruct (mod2_cases n) as [-> | ->]; done). rewrite Ho.
  assert (Hit : forall i (x : R), Nat.iter i (fun j => (j + n1)%num) x = (x + INR i)%R).
  { intros i x. induction i as [|i IH]; [simpl; lra|]. cbn [Nat.iter nat_rect]. unfold Nat.iter in IH. rewrite IH, S_INR. cbn [nadd n1 Rnum]. lra. }
  set (st := fun (range : nat * nat) (m : nat) => elem_steps _ m).
  assert (Hst : forall off c, run_steps (st (off, off + length c) (length c)) c = Done (imap (fun i x => mul x (F (place n (off + i)))) c)).
  { intros off c. unfold st. apply elem_steps_spec. intros i x _. f_equal. rewrite mul_assoc, Hit. unfold F, place. do 5 f_equal. cbn [fst nadd nopp ndiv nofnat Rnum].
    fold center. rewrite plus_INR. unfold center. simpl (INR 2). lra. }
  destruct l as [|y l].
  - destruct Hs as [|Hs]; [done|]. unfold execute_with_range. cbn [length]. unfold no_threads_for_nothing in Hs.
    destruct (1 <? determine_number_of_chunks 0 Medium s) eqn:E; [apply Nat.ltb_lt in E; lia|]. apply (Hst 0 []).
  - rewrite (execute_with_range_any Medium s sched _ 1 _ (fun off c => Done (imap (fun i x => mul x (F (place n (off + i)))) c))).
    + done.
    + lia.
    + done.
    + apply (splittable_imap 1 (fun i x => mul x (F (place n i)))).
    + intros off c. apply Hst.
Qed.
End closure.
