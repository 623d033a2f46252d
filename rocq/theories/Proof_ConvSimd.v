From Verif Require Export Proof_Convolve Proof_Dot.
From stdpp Require Import list_numbers.

Section copies.
Context {A : Type} `{Num A}.

(** The lanes which are pushed so far *)
Definition pushed (w : nat) (st : list (list A) * list A * nat) (l : list A) : Prop :=
  let '(copy, cur, k) := st in Forall (fun b => length b = w) copy /\ length cur = w /\ k < w /\ concat copy ++ take k cur = l.

Lemma push_lane_spec w x st l : pushed w st l -> exists st', push_lane x st = Done st' /\ pushed w st' (l ++ [x]).
Proof.
  destruct st as [[copy cur] k]. intros (Hc & Hw & Hk & <-). unfold push_lane. rewrite wr_Done by lia. rewrite bind_Done, insert_length.
  assert (Ht : take (k + 1) (<[k:=x]> cur) = take k cur ++ [x]).
  { rewrite Nat.add_1_r. rewrite (take_S_r _ _ x) by (apply list_lookup_insert; lia). by rewrite take_insert by lia. }
  destruct (length cur <=? k + 1) eqn:E; [apply Nat.leb_le in E | apply Nat.leb_gt in E].
  - eexists. split; [done|]. repeat split.
    + apply Forall_app. split; [done|]. constructor; [by rewrite insert_length|constructor].
    + by rewrite insert_length.
    + lia.
    + rewrite take_0, app_nil_r, concat_app. cbn [concat]. rewrite app_nil_r, <- app_assoc. f_equal.
      rewrite <- Ht. symmetry. apply take_ge. rewrite insert_length. lia.
  - eexists. split; [done|]. repeat split; [done | by rewrite insert_length | lia |]. by rewrite Ht, app_assoc.
Qed.

Lemma take_last_app (l : list A) x : take_last (l ++ [x]) = Done (x, l).
Proof. unfold take_last. rewrite rev_app_distr. cbn [rev app]. by rewrite rev_involutive. Qed.

Lemma pushed_end w n st l : 0 < w -> pushed w st l -> length l = n * w ->
  let '(copy, _, k) := st in k = 0 /\ length copy = n /\ Forall (fun b => length b = w) copy /\ concat copy = l.
Proof.
  intros Hw0. destruct st as [[copy cur] k]. intros (Hc & Hw & Hk & <-) Hl. rewrite app_length, take_length in Hl.
  assert (Hcl : length (concat copy) = length copy * w).
  { clear -Hc. induction Hc as [|b copy Hb Hc IH]; [done|]. cbn [concat length]. rewrite app_length. lia. }
  rewrite Hcl in Hl. assert (Hn : k = 0 /\ length copy = n).
  { rewrite Nat.min_l in Hl by lia. assert (length copy = n \/ length copy < n \/ n < length copy) as [?|[?|?]] by lia; nia. }
  destruct Hn as [-> ->]. split_and!; try done. by rewrite take_0, app_nil_r.
Qed.

(** The lane, or point, number [j] of a shifted copy, counted from the end *)
Definition shifted_at {P} (zero : P) (shift : nat) (h : list P) (j : nat) : P :=
  if (j <? shift) || (length h + shift <=? j) then zero else default zero (h !! (j - shift)).

Lemma shifted_copy_real w shift (h : list A) : 0 < w ->
  let n := (length h + shift + w - 1) / w in
  exists copy, shifted_copy w 1 shift h = Done copy /\ length copy = n /\ Forall (fun b => length b = w) copy /\
    concat copy = map (shifted_at n0 shift h) (rev (seq 0 (n * w))).
Proof.
  intros Hw n. unfold shifted_copy. cbv zeta. fold n.
  match goal with |- context [while_ ?aa ?bb ?cc ?dd] => destruct (while_inv
    (fun '(j, d, st) => j <= n * w /\ d = take (j - shift) h /\ pushed w st (map (shifted_at n0 shift h) (rev (seq j (n * w - j)))))
    (fun '(j, _, _) => j) aa bb cc dd) as ([[j d'] st] & -> & Hinv & Hcond) end.
  - split; [lia|]. split.
    + symmetry. apply take_ge. pose proof (Nat.div_mod (length h + shift + w - 1) w). fold n in H0. pose proof (Nat.mod_upper_bound (length h + shift + w - 1) w). nia.
    + rewrite Nat.sub_diag. repeat split; [constructor | by rewrite replicate_length | done].
  - lia.
  - intros [[j d] st] (Hj & -> & Hp) Hc. apply Nat.ltb_lt in Hc. rewrite usub_Done by lia. rewrite bind_Done.
    assert (Hseq : rev (seq (j - 1) (n * w - (j - 1))) = rev (seq j (n * w - j)) ++ [j - 1]).
    { replace (n * w - (j - 1)) with (S (n * w - j)) by lia. cbn [seq rev]. replace (S (j - 1)) with j by lia. done. }
    destruct ((j - 1 <? shift) || (length h + shift <=? j - 1)) eqn:E.
    + destruct (push_lane_spec w n0 st _ Hp) as (st' & -> & Hp'). rewrite bind_Done. cbn [Nat.ltb Nat.leb]. eexists. split; [done|].
      split; [|lia]. split; [lia|]. split.
      * apply orb_true_iff in E as [E|E]; [apply Nat.ltb_lt in E | apply Nat.leb_le in E].
        -- f_equal. lia.
        -- rewrite !take_ge by lia. done.
      * rewrite Hseq, map_app. cbn [map]. unfold shifted_at at 2. by rewrite E.
    + apply orb_false_iff in E as [E1 E2]. apply Nat.ltb_ge in E1. apply Nat.leb_gt in E2. cbn [Nat.ltb Nat.leb].
      destruct (lookup_lt_is_Some_2 h (j - 1 - shift)) as [x Hx]; [lia|].
      replace (j - shift) with (S (j - 1 - shift)) by lia. rewrite (take_S_r _ _ x Hx), take_last_app, bind_Done.
      destruct (push_lane_spec w x st _ Hp) as (st' & -> & Hp'). rewrite bind_Done. eexists. split; [done|].
      split; [|lia]. split; [lia|]. split; [done|]. rewrite Hseq, map_app. cbn [map]. unfold shifted_at at 2.
      destruct ((j - 1 <? shift) || (length h + shift <=? j - 1)) eqn:E; [|by rewrite Hx].
      apply orb_true_iff in E as [E|E]; [apply Nat.ltb_lt in E | apply Nat.leb_le in E]; lia.
  - rewrite bind_Done. destruct Hinv as (_ & _ & Hp). apply Nat.ltb_ge in Hcond. assert (j = 0) as -> by lia. rewrite Nat.sub_0_r in Hp.
    pose proof (pushed_end w n st _ Hw Hp) as Hend. destruct st as [[copy cur] k]. destruct Hend as (-> & Hl & Hf & Hcc).
    { by rewrite map_length, rev_length, seq_length. }
    rewrite Hl, Nat.eqb_refl. cbn [Nat.eqb assert_]. rewrite !bind_Done. by exists copy.
Qed.

Lemma shifted_copy_complex ns shift (h : list (A * A)) : 0 < ns ->
  let n := (2 * length h + 2 * shift + 2 * ns - 1) / (2 * ns) in
  exists copy, shifted_copy (2 * ns) 2 (2 * shift) (complex_to_array h) = Done copy /\ length copy = n /\ Forall (fun b => length b = 2 * ns) copy /\
    concat copy = complex_to_array (map (shifted_at (n0, n0) shift h) (rev (seq 0 (n * ns)))).
Proof.
  intros Hw n. unfold shifted_copy. cbv zeta. rewrite complex_to_array_length. replace (length h * 2 + 2 * shift + 2 * ns - 1) with (2 * length h + 2 * shift + 2 * ns - 1) by lia.
  fold n. assert (Hn : n * (2 * ns) = 2 * (n * ns)) by lia. rewrite Hn.
  match goal with |- context [while_ ?aa ?bb ?cc ?dd] => destruct (while_inv
    (fun '(j, d, st) => exists jp, j = 2 * jp /\ jp <= n * ns /\ d = complex_to_array (take (jp - shift) h) /\
        pushed (2 * ns) st (complex_to_array (map (shifted_at (n0, n0) shift h) (rev (seq jp (n * ns - jp))))))
    (fun '(j, _, _) => j) aa bb cc dd) as ([[j d'] st] & -> & Hinv & Hcond) end.
  - exists (n * ns). split; [lia|]. split; [lia|]. split.
    + f_equal. symmetry. apply take_ge. pose proof (Nat.div_mod (2 * length h + 2 * shift + 2 * ns - 1) (2 * ns)). fold n in H0.
      pose proof (Nat.mod_upper_bound (2 * length h + 2 * shift + 2 * ns - 1) (2 * ns)). nia.
    + rewrite Nat.sub_diag. repeat split; [constructor | by rewrite replicate_length | lia].
  - lia.
  - intros [[j d] st] (jp & -> & Hj & -> & Hp) Hc. apply Nat.ltb_lt in Hc. rewrite usub_Done by lia. rewrite bind_Done.
    destruct jp as [|jp]; [lia|]. replace (2 * S jp - 2) with (2 * jp) by lia.
    assert (Hseq : rev (seq jp (n * ns - jp)) = rev (seq (S jp) (n * ns - S jp)) ++ [jp]).
    { replace (n * ns - jp) with (S (n * ns - S jp)) by lia. done. }
    destruct ((2 * jp <? 2 * shift) || (2 * length h + 2 * shift <=? 2 * jp)) eqn:E.
    + destruct (push_lane_spec (2 * ns) n0 st _ Hp) as (st' & -> & Hp'). rewrite bind_Done. cbn [Nat.ltb Nat.leb].
      destruct (push_lane_spec (2 * ns) n0 st' _ Hp') as (st'' & -> & Hp''). rewrite bind_Done. eexists. split; [done|].
      split; [|lia]. exists jp. split; [done|]. split; [lia|]. split.
      * f_equal. apply orb_true_iff in E as [E|E]; [apply Nat.ltb_lt in E | apply Nat.leb_le in E].
        -- f_equal. lia.
        -- rewrite !take_ge by lia. done.
      * rewrite Hseq, map_app, complex_to_array_app. cbn [map]. unfold shifted_at at 2.
        replace ((jp <? shift) || (length h + shift <=? jp)) with true; [by rewrite <- app_assoc in Hp''|].
        symmetry. apply orb_true_iff in E as [E|E]; apply orb_true_iff; [left; apply Nat.ltb_lt in E; apply Nat.ltb_lt; lia | right; apply Nat.leb_le in E; apply Nat.leb_le; lia].
    + apply orb_false_iff in E as [E1 E2]. apply Nat.ltb_ge in E1. apply Nat.leb_gt in E2. cbn [Nat.ltb Nat.leb].
      destruct (lookup_lt_is_Some_2 h (jp - shift)) as [[re im] Hx]; [lia|].
      replace (S jp - shift) with (S (jp - shift)) by lia. rewrite (take_S_r _ _ _ Hx), complex_to_array_app. cbn [complex_to_array].
      rewrite (app_assoc _ [re] [im] : _ ++ [re; im] = _). rewrite take_last_app, bind_Done, take_last_app, bind_Done.
      destruct (push_lane_spec (2 * ns) re st _ Hp) as (st' & -> & Hp'). rewrite bind_Done.
      destruct (push_lane_spec (2 * ns) im st' _ Hp') as (st'' & -> & Hp''). rewrite bind_Done. eexists. split; [done|].
      split; [|lia]. exists jp. split; [done|]. split; [lia|]. split; [done|]. rewrite Hseq, map_app, complex_to_array_app. cbn [map]. unfold shifted_at at 2.
      destruct ((jp <? shift) || (length h + shift <=? jp)) eqn:E; [|rewrite Hx; by rewrite <- app_assoc in Hp''].
      apply orb_true_iff in E as [E|E]; [apply Nat.ltb_lt in E | apply Nat.leb_le in E]; lia.
  - rewrite bind_Done. destruct Hinv as (jp & -> & _ & _ & Hp). apply Nat.ltb_ge in Hcond. assert (jp = 0) as -> by lia. rewrite Nat.sub_0_r in Hp.
    pose proof (pushed_end (2 * ns) n st _ ltac:(lia) Hp) as Hend. destruct st as [[copy cur] k]. destruct Hend as (-> & Hl & Hf & Hcc).
    { rewrite complex_to_array_length, map_length, rev_length, seq_length. lia. }
    rewrite Hl, Nat.eqb_refl. cbn [Nat.eqb assert_]. rewrite !bind_Done. by exists copy.
Qed.
End copies.

Section sums.
Context {P : Type} (zero : P) (add mul : P -> P -> P) (M : comm_monoid add zero).

Lemma sum_rev l : sum_of add zero (rev l) = sum_of add zero l.
Proof.
  induction l as [|x l IH]; [done|]. cbn [rev]. rewrite (sum_app add zero M), IH. unfold sum_of. cbn [foldr]. destruct M as (_ & Hc & Hz).
  by rewrite Hz, Hc.
Qed.
Lemma sum_all_zero l : Forall (fun x => x = zero) l -> sum_of add zero l = zero.
Proof. induction 1 as [|x l -> _ IH]; [done|]. unfold sum_of in *. cbn [foldr]. rewrite IH. apply M. Qed.

Context (Hmul0 : forall x, mul x zero = zero).

(** The sum over a shifted copy: only the part with the taps counts. *)
Lemma shifted_sum (X : nat -> P) (h : list P) shift N : length h + shift <= N ->
  sum_of add zero (map (fun j => mul (X j) (shifted_at zero shift h j)) (seq 0 N)) =
  sum_of add zero (map (fun k => mul (X (k + shift)) (default zero (h !! k))) (seq 0 (length h))).
Proof.
  intros HN. replace N with (shift + (length h + (N - shift - length h))) by lia. rewrite !seq_app, !map_app, !(sum_app add zero M).
  rewrite (sum_all_zero (map _ (seq 0 shift))), (sum_all_zero (map _ (seq (0 + shift + length h) _))).
  - rewrite (monoid_zero_l add zero M). destruct M as (_ & _ & ->). f_equal. replace (0 + shift) with shift by lia.
    transitivity (map (fun j => mul (X j) (shifted_at zero shift h j)) (map (Nat.add shift) (seq 0 (length h)))).
    + f_equal. pose proof (fmap_add_seq shift 0 (length h)) as E. rewrite Nat.add_0_r in E. by rewrite <- E.
    + rewrite map_map. apply map_ext_in. intros k Hk%in_seq. rewrite (Nat.add_comm k). f_equal. unfold shifted_at.
      destruct ((shift + k <? shift) || (length h + shift <=? shift + k)) eqn:E.
      * apply orb_true_iff in E as [E|E]; [apply Nat.ltb_lt in E | apply Nat.leb_le in E]; lia.
      * do 2 f_equal. lia.
  - apply Forall_forall. intros y Hy. apply elem_of_list_fmap in Hy as (j & -> & Hj%elem_of_seq). unfold shifted_at.
    replace (length h + shift <=? j) with true by (symmetry; apply Nat.leb_le; lia). by rewrite orb_true_r.
  - apply Forall_forall. intros y Hy. apply elem_of_list_fmap in Hy as (j & -> & Hj%elem_of_seq). unfold shifted_at.
    replace (j <? shift) with true by (symmetry; apply Nat.ltb_lt; lia). done.
Qed.
End sums.

(** What the code needs to know about the number space: [pts] are the points of an array *)
Record point_view {A : Type} `{Num A} {P : Type} (zero : P) (add mul : P -> P -> P) (step ns : nat) (r : reg_type) (pts : list A -> list P)
    (simd_mul : list A -> list A -> list A) (simd_sum : list A -> P) : Prop := PointView {
  pv_monoid : comm_monoid add zero;
  pv_mul0 : forall x, mul x zero = zero;
  pv_step : 0 < step;
  pv_ns : 0 < ns;
  pv_len : reg_len r = step * ns;
  pv_app : forall a b, length a mod step = 0 -> pts (a ++ b) = pts a ++ pts b;
  pv_pts : forall a, length a mod step = 0 -> length a = step * length (pts a);
  pv_mul : forall a b, length a = reg_len r -> length b = reg_len r ->
             length (simd_mul a b) = reg_len r /\ pts (simd_mul a b) = zip_with mul (pts a) (pts b);
  pv_add : forall a b, length a = reg_len r -> length b = reg_len r -> pts (reg_bin nadd a b) = zip_with add (pts a) (pts b);
  pv_sum : forall a, length a = reg_len r -> simd_sum a = sum_of add zero (pts a);
  pv_zero : pts (splat r n0) = replicate ns zero;
  pv_nil : pts [] = [];
}.

Lemma concat_take_blocks {B} w n (bs : list (list B)) : Forall (fun b => length b = w) bs -> concat (take n bs) = take (n * w) (concat bs).
Proof.
  intros Hb. revert n. induction Hb as [|b bs Hb Hbs IH]; intros n; [rewrite take_nil; cbn [concat]; by rewrite take_nil|].
  destruct n as [|n]; [done|]. cbn [take concat]. rewrite IH. rewrite take_app_ge by lia. f_equal. f_equal. lia.
Qed.
Lemma concat_drop_blocks {B} w n (bs : list (list B)) : Forall (fun b => length b = w) bs -> concat (drop n bs) = drop (n * w) (concat bs).
Proof.
  intros Hb. revert n. induction Hb as [|b bs Hb Hbs IH]; intros n; [rewrite drop_nil; cbn [concat]; by rewrite drop_nil|].
  destruct n as [|n]; [done|]. cbn [drop concat]. rewrite IH. rewrite drop_app_ge by lia. f_equal. lia.
Qed.

Section point.
Context {A : Type} `{Num A} {P : Type} (zero : P) (add mul : P -> P -> P) (st ns : nat) (r : reg_type) (pts : list A -> list P)
    (simd_mul : list A -> list A -> list A) (simd_sum : list A -> P).
Context (V : point_view zero add mul st ns r pts simd_mul simd_sum).

Lemma view_mult k (a : list A) : length a = k * reg_len r -> length (pts a) = k * ns.
Proof.
  intros Ha. pose proof (pv_ns _ _ _ _ _ _ _ _ _ V). pose proof (pv_step _ _ _ _ _ _ _ _ _ V) as Hs. pose proof (pv_len _ _ _ _ _ _ _ _ _ V) as Hl.
  pose proof (pv_pts _ _ _ _ _ _ _ _ _ V a) as Hp. rewrite Hp in Ha.
  - rewrite Hl in Ha. nia.
  - rewrite Ha, Hl. replace (k * (st * ns)) with (k * ns * st) by lia. apply Nat.mod_mul. lia.
Qed.
Lemma view_mod (a : list A) : length a mod reg_len r = 0 -> length a mod st = 0.
Proof.
  pose proof (pv_ns _ _ _ _ _ _ _ _ _ V). pose proof (pv_step _ _ _ _ _ _ _ _ _ V) as Hs. rewrite (pv_len _ _ _ _ _ _ _ _ _ V).
  intros [k Hk]%Nat.mod_divide; [|nia]. rewrite Hk. replace (k * (st * ns)) with (k * ns * st) by lia. apply Nat.mod_mul. lia.
Qed.

Lemma lanes_total regs hs acc : Forall (fun b => length b = reg_len r) regs -> Forall (fun b => length b = reg_len r) hs -> length regs = length hs ->
  length acc = reg_len r ->
  simd_sum (foldl (fun sum '(this, other) => reg_bin nadd sum (simd_mul this other)) acc (zip regs hs)) =
  add (sum_of add zero (pts acc)) (sum_of add zero (zip_with mul (pts (concat regs)) (pts (concat hs)))).
Proof.
  pose proof (pv_monoid _ _ _ _ _ _ _ _ _ V) as M. intros Hr. revert hs acc. induction Hr as [|a regs Ha Hr IH]; intros hs acc Hh Hl Hacc.
  - destruct hs; [|done]. cbn [zip zip_with foldl concat]. rewrite (pv_sum _ _ _ _ _ _ _ _ _ V) by done. rewrite (pv_nil _ _ _ _ _ _ _ _ _ V).
    cbn [zip_with]. change (sum_of add zero []) with zero. by destruct M as (_ & _ & ->).
  - destruct Hh as [|b hs Hb Hh]; [done|]. cbn [zip zip_with foldl concat].
    destruct (pv_mul _ _ _ _ _ _ _ _ _ V a b Ha Hb) as [Hml Hm].
    rewrite IH; [|done|simpl in Hl; lia|unfold reg_bin; rewrite zip_with_length; lia].
    rewrite (pv_add _ _ _ _ _ _ _ _ _ V) by done.
    rewrite !(pv_app _ _ _ _ _ _ _ _ _ V) by (apply view_mod; rewrite ?Ha, ?Hb; apply Nat.mod_same; rewrite (pv_len _ _ _ _ _ _ _ _ _ V);
       pose proof (pv_ns _ _ _ _ _ _ _ _ _ V); pose proof (pv_step _ _ _ _ _ _ _ _ _ V); nia).
    assert (La : length (pts a) = ns) by (rewrite (view_mult 1); lia). assert (Lb : length (pts b) = ns) by (rewrite (view_mult 1); lia).
    assert (Lacc : length (pts acc) = ns) by (rewrite (view_mult 1); lia).
    rewrite zip_with_app by lia. rewrite (sum_app add zero M), Hm.
    rewrite (sum_zip add zero M) by (rewrite zip_with_length; lia). destruct M as (Ha' & _ & _). by rewrite Ha'.
Qed.

(** The registers [from .. to] of the center *)
Lemma center_regs (C : list A) fuel from to : length C <= fuel -> length C mod reg_len r = 0 -> from <= to -> to * reg_len r <= length C ->
  exists regs, slice (chunks_fuel fuel (reg_len r) C) from to = Done regs /\ Forall (fun b => length b = reg_len r) regs /\ length regs = to - from /\
    concat regs = take ((to - from) * reg_len r) (drop (from * reg_len r) C).
Proof.
  pose proof (pv_ns _ _ _ _ _ _ _ _ _ V). pose proof (pv_step _ _ _ _ _ _ _ _ _ V). pose proof (pv_len _ _ _ _ _ _ _ _ _ V) as Hl.
  assert (Hw : 0 < reg_len r) by nia. set (w := reg_len r) in *. clearbody w. clear Hl. intros Hf Hm Hft Hto.
  assert (Hn : to <= length (chunks_fuel fuel w C)).
  { destruct (decide (to = 0)); [lia|]. assert (Hs : is_Some (chunks_fuel fuel w C !! (to - 1))).
    { rewrite chunks_fuel_lookup by done. replace ((to - 1) * w <? length C) with true by (symmetry; apply Nat.ltb_lt; nia). done. }
    apply lookup_lt_is_Some_1 in Hs. lia. }
  assert (Hb : Forall (fun b => length b = w) (chunks_fuel fuel w C)).
  { apply Forall_forall. intros b Hb. by apply (chunks_fuel_blocks fuel w C). }
  rewrite slice_Done by done. eexists. split; [done|]. split_and!.
  - by apply Forall_take, Forall_drop.
  - rewrite take_length, drop_length. lia.
  - rewrite (concat_take_blocks w), (concat_drop_blocks w) by (done || by apply Forall_drop). by rewrite chunks_fuel_concat.
Qed.

Lemma view_take k (C : list A) : k * reg_len r <= length C -> pts (take (k * reg_len r) C) = take (k * ns) (pts C).
Proof.
  intros Hk. assert (Hl : length (take (k * reg_len r) C) = k * reg_len r) by (rewrite take_length; lia).
  rewrite <- (take_drop (k * reg_len r) C) at 2. rewrite (pv_app _ _ _ _ _ _ _ _ _ V).
  - rewrite take_app_alt; [done|]. by rewrite (view_mult k).
  - apply view_mod. rewrite Hl. destruct (decide (reg_len r = 0)) as [E|E]; [by rewrite E, Nat.mul_0_r | by apply Nat.mod_mul].
Qed.
Lemma view_drop k (C : list A) : k * reg_len r <= length C -> pts (drop (k * reg_len r) C) = drop (k * ns) (pts C).
Proof.
  intros Hk. assert (Hl : length (take (k * reg_len r) C) = k * reg_len r) by (rewrite take_length; lia).
  rewrite <- (take_drop (k * reg_len r) C) at 2. rewrite (pv_app _ _ _ _ _ _ _ _ _ V).
  - rewrite drop_app_alt; [done|]. by rewrite (view_mult k).
  - apply view_mod. rewrite Hl. destruct (decide (reg_len r = 0)) as [E|E]; [by rewrite E, Nat.mul_0_r | by apply Nat.mod_mul].
Qed.

(** All the shifted copies are there *)
Definition good_shifts (h : list P) (shifts : list (list (list A))) : Prop :=
  length shifts = ns /\
  forall s, s < ns -> exists copy, shifts !! s = Some copy /\ Forall (fun b => length b = reg_len r) copy /\
    (length h + (ns - s) mod ns <= length copy * ns /\ length copy * ns < length h + (ns - s) mod ns + ns) /\
    pts (concat copy) = map (shifted_at zero ((ns - s) mod ns) h) (rev (seq 0 (length copy * ns))).

Lemma round_up e : 0 < ns -> (e + ns - 1) / ns * ns = e + (ns - e mod ns) mod ns.
Proof.
  intros Hn. pose proof (Nat.div_mod e ns ltac:(lia)) as E. pose proof (Nat.mod_upper_bound e ns ltac:(lia)) as Hm. set (q := e / ns) in *. set (m := e mod ns) in *. clearbody q m.
  destruct (decide (m = 0)) as [->|Hm0].
  - rewrite Nat.sub_0_r, Nat.mod_same by lia. replace (e + ns - 1) with (ns - 1 + q * ns) by lia. rewrite Nat.div_add, Nat.div_small by lia. lia.
  - rewrite (Nat.mod_small (ns - m)) by lia. replace (e + ns - 1) with (m - 1 + (q + 1) * ns) by lia. rewrite Nat.div_add, Nat.div_small by lia. lia.
Qed.

Lemma simd_point_spec (h x : list P) (C : list A) fuel shifts L k conv i :
  good_shifts h shifts -> length C <= fuel -> length C = k * reg_len r -> pts C = take (k * ns) (drop L x) -> L + k * ns <= length x ->
  length h + L <= i + conv -> i + conv <= L + k * ns ->
  simd_point simd_mul simd_sum r shifts (chunks_fuel fuel (reg_len r) C) L conv i =
  Done (sum_of add zero (map (fun k => mul (around zero x (Z.of_nat i + Z.of_nat conv - 1 - Z.of_nat k)) (default zero (h !! k))) (seq 0 (length h)))).
Proof.
  intros [Hsl Hs] Hf HC Hpts HLx Hlo Hhi. pose proof (pv_ns _ _ _ _ _ _ _ _ _ V) as Hns. pose proof (pv_monoid _ _ _ _ _ _ _ _ _ V) as M.
  assert (Hw : 0 < reg_len r) by (pose proof (pv_step _ _ _ _ _ _ _ _ _ V); rewrite (pv_len _ _ _ _ _ _ _ _ _ V); nia).
  unfold simd_point. rewrite usub_Done by lia. rewrite bind_Done, Hsl. set (e0 := i + conv - L) in *.
  assert (He0 : e0 = i + conv - L) by done. clearbody e0.
  assert (Hu : umod e0 ns = Done (e0 mod ns)) by (destruct ns; [lia|done]). rewrite Hu, bind_Done, usub_Done by lia. rewrite bind_Done.
  assert (Hd : udiv (e0 + ns - 1) ns = Done ((e0 + ns - 1) / ns)) by (destruct ns; [lia|done]). rewrite Hd, bind_Done.
  destruct (Hs (e0 mod ns)) as (copy & Hcopy & Hfc & Hlen & Hlanes); [apply Nat.mod_upper_bound; lia|].
  rewrite (proj2 (rd_Done _ _ _) Hcopy), bind_Done. pose proof (round_up e0 Hns) as Hr. set (e := (e0 + ns - 1) / ns) in *. clearbody e. clear Hd Hu.
  set (sh := (ns - e0 mod ns) mod ns) in *. assert (Hsh : sh < ns) by (apply Nat.mod_upper_bound; lia). clearbody sh.
  set (N := length copy) in *. assert (HN : N <= e) by nia. assert (Hek : e <= k) by nia.
  rewrite usub_Done by lia. rewrite bind_Done.
  destruct (center_regs C fuel (e - N) e) as (regs & -> & Hreg & Hrl & Hrc); [done | rewrite HC; apply Nat.mod_mul; lia | lia | rewrite HC; nia |].
  rewrite bind_Done. f_equal. rewrite lanes_total; [|done|done|rewrite Hrl; lia|unfold splat; by rewrite replicate_length].
  rewrite (pv_zero _ _ _ _ _ _ _ _ _ V), (sum_zeros add zero M), (monoid_zero_l add zero M). rewrite Hrc, Hlanes. fold N.
  replace (e - (e - N)) with N by lia.
  rewrite view_take by (rewrite drop_length, HC; nia). rewrite view_drop by (rewrite HC; nia). rewrite Hpts.
  set (X := fun j => default zero (x !! (L + e * ns - 1 - j))).
  transitivity (sum_of add zero (rev (map (fun j => mul (X j) (shifted_at zero sh h j)) (seq 0 (N * ns))))).
  - f_equal. apply list_eq. intros q. destruct (decide (q < N * ns)) as [Hq|Hq].
    + assert (HNe : N * ns <= e * ns) by (apply Nat.mul_le_mono_r; lia). assert (Hekn : e * ns <= k * ns) by (apply Nat.mul_le_mono_r; lia).
      assert (HeN : (e - N) * ns = e * ns - N * ns) by (rewrite Nat.mul_sub_distr_r; done).
      rewrite rev_lookup by (by rewrite map_length, seq_length). rewrite map_length, seq_length.
      change (map ?g (seq 0 (N * ns))) with (g <$> seq 0 (N * ns)). rewrite list_lookup_fmap, lookup_seq_lt by lia.
      rewrite lookup_zip_with, lookup_take by lia. rewrite lookup_drop, lookup_take by lia. rewrite lookup_drop.
      change (map ?g ?l) with (g <$> l). rewrite list_lookup_fmap, rev_lookup by (by rewrite seq_length). rewrite seq_length, lookup_seq_lt by lia.
      destruct (lookup_lt_is_Some_2 x (L + ((e - N) * ns + q))) as [y Hy]; [lia|]. rewrite Hy. cbn. unfold X.
      replace (L + e * ns - 1 - (N * ns - 1 - q)) with (L + ((e - N) * ns + q)) by lia. by rewrite Hy.
    + rewrite !lookup_ge_None_2; [done | rewrite rev_length, map_length, seq_length; lia |].
      rewrite zip_with_length, map_length, rev_length, seq_length. lia.
  - rewrite (sum_rev zero add M), (shifted_sum zero add mul M (pv_mul0 _ _ _ _ _ _ _ _ _ V)) by lia. f_equal. apply map_ext_in. intros j Hj%in_seq. f_equal.
    unfold X, around. f_equal. f_equal. rewrite circular_small by lia. lia.
Qed.
End point.
