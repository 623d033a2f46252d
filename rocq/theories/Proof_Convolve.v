From Verif Require Export Proof_Window Proof_PadB Spec_Convolve.
From stdpp Require Import list_numbers.

Lemma circular_lt n z : 0 < n -> circular n z < n.
Proof. intros Hn. unfold circular. pose proof (Z.mod_pos_bound z (Z.of_nat n)). lia. Qed.
Lemma circular_small n z : (0 <= z < Z.of_nat n)%Z -> circular n z = Z.to_nat z.
Proof. intros Hz. unfold circular. by rewrite Z.mod_small. Qed.
Lemma circular_add n z k : circular n (z + k * Z.of_nat n) = circular n z.
Proof. unfold circular. destruct n; [by rewrite Z.mul_0_r, Z.add_0_r|]. by rewrite Z.mod_add by lia. Qed.
Lemma circular_pred n z : 0 < n -> circular n (z - 1) = if 0 <? circular n z then circular n z - 1 else n - 1.
Proof.
  intros Hn. pose proof (Z.mod_pos_bound z (Z.of_nat n) ltac:(lia)). pose proof (Z.div_mod z (Z.of_nat n) ltac:(lia)) as E.
  assert (Hz : circular n (z - 1) = circular n (z mod Z.of_nat n - 1)).
  { rewrite E at 1. replace (Z.of_nat n * (z / Z.of_nat n) + z mod Z.of_nat n - 1)%Z with (z mod Z.of_nat n - 1 + z / Z.of_nat n * Z.of_nat n)%Z by lia.
    apply circular_add. }
  rewrite Hz. unfold circular at 2 3. set (y := (z mod Z.of_nat n)%Z) in *. clearbody y. destruct (0 <? Z.to_nat y) eqn:Ey.
  - apply Nat.ltb_lt in Ey. rewrite circular_small by lia. lia.
  - apply Nat.ltb_ge in Ey. assert (y = 0)%Z as -> by lia. rewrite <- (circular_add n _ 1), circular_small by lia. lia.
Qed.
Lemma circular_succ n z : 0 < n -> circular n (z + 1) = if circular n z <? n - 1 then circular n z + 1 else 0.
Proof.
  intros Hn. pose proof (circular_lt n z Hn) as Hl. pose proof (circular_pred n (z + 1) Hn) as E. replace (z + 1 - 1)%Z with z in E by lia.
  pose proof (circular_lt n (z + 1) Hn). rewrite E in *.
  destruct (0 <? circular n (z + 1)) eqn:E1; [apply Nat.ltb_lt in E1 | apply Nat.ltb_ge in E1].
  - destruct (circular n (z + 1) - 1 <? n - 1) eqn:E2; [lia|]. apply Nat.ltb_ge in E2. lia.
  - by rewrite Nat.ltb_irrefl; lia.
Qed.

Lemma wi_new_Done n z c : 0 < n -> wi_new n z c = Done (WIter (circular n z) c).
Proof.
  intros Hn. unfold wi_new. destruct (n =? 0) eqn:E; [apply Nat.eqb_eq in E; lia|]. cbn [while_].
  pose proof (Z.rem_bound_abs z (Z.of_nat n) ltac:(lia)) as Hb. pose proof (Z.quot_rem z (Z.of_nat n) ltac:(lia)) as Hq.
  set (y := Z.rem z (Z.of_nat n)) in *. set (q := Z.quot z (Z.of_nat n)) in *. clearbody y q.
  assert (Hz : circular n z = circular n y).
  { rewrite Hq. replace (Z.of_nat n * q + y)%Z with (y + q * Z.of_nat n)%Z by lia. apply circular_add. }
  destruct (y <? 0)%Z eqn:Ey; [apply Z.ltb_lt in Ey | apply Z.ltb_ge in Ey].
  - rewrite bind_Done. destruct (y + Z.of_nat n <? 0)%Z eqn:E2; [apply Z.ltb_lt in E2; lia|]. rewrite bind_Done.
    do 2 f_equal. rewrite Hz, <- (circular_add n y 1), circular_small by lia. f_equal. lia.
  - rewrite bind_Done. do 2 f_equal. rewrite Hz, circular_small by lia. done.
Qed.
Lemma wi_new_empty z c : wi_new 0 z c = Panicked.
Proof. done. Qed.

Lemma around_rd {P} (zero : P) x z : x <> [] -> rd x (circular (length x) z) = Done (around zero x z).
Proof.
  intros Hx. unfold rd, around. destruct (lookup_lt_is_Some_2 x (circular (length x) z)) as [y ->]; [|done].
  apply circular_lt. destruct x; [done|simpl; lia].
Qed.

Lemma wi_next_Some {P} (zero : P) x z c : x <> [] ->
  wi_next x (WIter (circular (length x) z) (S c)) = Done (Some (around zero x (z + 1), WIter (circular (length x) (z + 1)) c)).
Proof.
  intros Hx. assert (0 < length x) by (destruct x; [done|simpl; lia]). unfold wi_next. cbn [wi_count wi_pos].
  rewrite <- circular_succ by done. cbv zeta. by rewrite (around_rd zero) by done.
Qed.
Lemma rwi_next_Some {P} (zero : P) x z c : x <> [] ->
  rwi_next x (WIter (circular (length x) z) (S c)) = Done (Some (around zero x (z - 1), WIter (circular (length x) (z - 1)) c)).
Proof.
  intros Hx. assert (0 < length x) by (destruct x; [done|simpl; lia]). unfold rwi_next. cbn [wi_count wi_pos].
  rewrite <- circular_pred by done. cbv zeta. by rewrite (around_rd zero) by done.
Qed.

Lemma items_forward {P} (zero : P) x z c : x <> [] ->
  items (wi_next x) (WIter (circular (length x) z) c) = Done (map (fun k => around zero x (z + 1 + Z.of_nat k)) (seq 0 c)).
Proof.
  intros Hx. unfold items. cbn [wi_count]. revert z. induction c as [|c IH]; intros z; [done|].
  change (S c + 1) with (S (c + 1)). cbn [items_fuel]. rewrite (wi_next_Some zero) by done. rewrite bind_Done, IH, bind_Done.
  cbn [seq map]. f_equal. f_equal; [f_equal; lia|]. rewrite <- seq_shift, map_map. apply map_ext. intros k. f_equal. lia.
Qed.
Lemma items_backward {P} (zero : P) x z c : x <> [] ->
  items (rwi_next x) (WIter (circular (length x) z) c) = Done (map (fun k => around zero x (z - 1 - Z.of_nat k)) (seq 0 c)).
Proof.
  intros Hx. unfold items. cbn [wi_count]. revert z. induction c as [|c IH]; intros z; [done|].
  change (S c + 1) with (S (c + 1)). cbn [items_fuel]. rewrite (rwi_next_Some zero) by done. rewrite bind_Done, IH, bind_Done.
  cbn [seq map]. f_equal. f_equal; [f_equal; lia|]. rewrite <- seq_shift, map_map. apply map_ext. intros k. f_equal. lia.
Qed.

Section fill.
Context {P : Type}.
(** Filling a target point by point *)
Lemma imap_const_seq {Q} (g : nat -> Q) (l : list P) : imap (fun i _ => g i) l = map g (seq 0 (length l)).
Proof.
  apply list_eq. intros i. rewrite list_lookup_imap. change (map g (seq 0 (length l))) with (g <$> seq 0 (length l)). rewrite list_lookup_fmap.
  destruct (decide (i < length l)) as [Hi|Hi].
  - rewrite lookup_seq_lt by done. destruct (lookup_lt_is_Some_2 l i Hi) as [y ->]. done.
  - rewrite (lookup_ge_None_2 l), (lookup_ge_None_2 (seq _ _)); [done | rewrite seq_length; lia | lia].
Qed.

Lemma elem_steps_all (op : nat -> P -> run P) pre l :
  run_steps (map (fun i c => x ← rd c i; y ← op i x; wr c i y) (seq (length pre) (length l))) (pre ++ l) =
  (r ← all_done (imap (fun i => op (length pre + i)) l); Done (pre ++ r)).
Proof.
  revert pre. induction l as [|x l IH]; intros pre; [done|]. cbn [length seq map].
  rewrite run_steps_cons.
  rewrite (proj2 (rd_Done (pre ++ x :: l) (length pre) x)) by (by rewrite lookup_app_r, Nat.sub_diag by lia). rewrite bind_Done.
  rewrite imap_cons, Nat.add_0_r. cbn [all_done]. destruct (op (length pre) x) as [y|].
  - rewrite !bind_Done. rewrite wr_Done by (rewrite app_length; simpl; lia).
    rewrite insert_app_r_alt, Nat.sub_diag by lia. cbn [insert list_insert].
    pose proof (IH (pre ++ [y])) as E. rewrite <- app_assoc in E. cbn [app] in E.
    rewrite app_length, Nat.add_1_r in E. rewrite bind_Done, E.
    replace (imap (fun i => op (S (length pre) + i)) l) with (imap ((fun i => op (length pre + i)) ∘ S) l).
    2:{ apply imap_ext. intros i z _. unfold compose. f_equal. lia. }
    destruct (all_done (imap ((λ i : nat, op (length pre + i)) ∘ S) l)); [|done]. rewrite !bind_Done, <- app_assoc. done.
  - done.
Qed.

Lemma all_done_app {Q} (l1 l2 : list (run Q)) : all_done (l1 ++ l2) = (r1 ← all_done l1; r2 ← all_done l2; Done (r1 ++ r2)).
Proof.
  induction l1 as [|m l1 IH]; cbn [all_done app].
  - rewrite bind_Done. by destruct (all_done l2).
  - destruct m; [|done]. rewrite !bind_Done, IH. destruct (all_done l1); [|done]. rewrite !bind_Done. by destruct (all_done l2).
Qed.

Lemma all_done_map {Q R} (f : Q -> run R) (g : Q -> R) l : (forall x, x ∈ l -> f x = Done (g x)) -> all_done (map f l) = Done (map g l).
Proof.
  induction l as [|x l IH]; intros Hf; [done|]. cbn [map all_done]. rewrite Hf by left. rewrite bind_Done, IH by (intros; apply Hf; by right). done.
Qed.

Lemma execute_fill s sched (f : nat -> run P) (g : nat -> P) (dest : list P) : (forall i, i < length dest -> f i = Done (g i)) ->
  dest <> [] \/ no_threads_for_nothing Large s ->
  execute_with_range Large s sched dest 1 (fun range n => elem_steps (fun i _ => f (fst range + i)) n) = Done (map g (seq 0 (length dest))).
Proof.
  intros Hf Hs.
  assert (Hst : forall off c, run_steps (elem_steps (fun i _ => f (fst (off, off + length c) + i)) (length c)) c =
      all_done (imap (fun i (_ : P) => f (off + i)) c)).
  { intros off c. pose proof (elem_steps_all (fun i _ => f (off + i)) [] c) as E. cbn [app length Nat.add] in E. unfold elem_steps. cbn [fst].
    rewrite E. by destruct (all_done _). }
  assert (Hd : all_done (imap (fun i (_ : P) => f (0 + i)) dest) = Done (map g (seq 0 (length dest)))).
  { cbn [Nat.add]. rewrite imap_const_seq. apply all_done_map. intros i Hi%elem_of_seq. apply Hf. lia. }
  destruct dest as [|y l].
  - destruct Hs as [|Hs]; [done|]. unfold execute_with_range. cbn [length]. unfold no_threads_for_nothing in Hs.
    destruct (1 <? determine_number_of_chunks 0 Large s) eqn:E; [apply Nat.ltb_lt in E; lia|]. apply (Hst 0 []).
  - rewrite (execute_with_range_any Large s sched _ 1 _ (fun off c => all_done (imap (fun i (_ : P) => f (off + i)) c))); [done | lia | done | |].
    + intros off l1 l2 _. rewrite imap_app, all_done_app. destruct (all_done (imap _ l1)) as [r1|]; [|done]. rewrite !bind_Done.
      replace (imap (fun i (_ : P) => f (off + length l1 + i)) l2) with (imap ((fun i (_ : P) => f (off + i)) ∘ Nat.add (length l1)) l2); [done|].
      apply imap_ext. intros i z _. unfold compose. f_equal. lia.
    + intros off c. apply Hst.
Qed.

(** Filling a target in a plain loop *)
Lemma loop_fill (body : nat -> list P -> run (list P)) (g : nat -> P) (dest : list P) :
  (forall i d, i < length dest -> length d = length dest -> body i d = wr d i (g i)) ->
  loop (length dest) 0 body dest = Done (map g (seq 0 (length dest))).
Proof.
  intros Hb. destruct (loop_inv (fun i d => length d = length dest /\ (forall k, k < i -> d !! k = Some (g k)) )
    (length dest) 0 body dest) as (d & -> & Hd & Hk).
  - split; [done|]. intros k Hk. lia.
  - intros i d Hi [Hl Hk]. cbn [Nat.add] in Hi. rewrite Hb by (done || lia). rewrite wr_Done by lia. eexists. split; [done|].
    split; [by rewrite insert_length|]. intros k Hki. destruct (decide (k = i)) as [->|Hne].
    + rewrite list_lookup_insert by lia. done.
    + rewrite list_lookup_insert_ne by done. apply Hk. lia.
  - f_equal. apply list_eq. intros k. change (map g (seq 0 (length dest))) with (g <$> seq 0 (length dest)). rewrite list_lookup_fmap.
    destruct (decide (k < length dest)).
    + rewrite Hk, lookup_seq_lt by lia. done.
    + rewrite !lookup_ge_None_2; [done | rewrite seq_length; lia | lia].
Qed.

End fill.

Section convolution.
Context {P : Type} (zero : P) (add mul : P -> P -> P).

Lemma convolve_zip_spec x h z c sum : x <> [] -> length h <= c ->
  convolve_zip add mul x (WIter (circular (length x) z) c) h sum =
  Done (foldl add sum (map (fun k => mul (around zero x (z - 1 - Z.of_nat k)) (default zero (h !! k))) (seq 0 (length h)))).
Proof.
  intros Hx. revert z c sum. induction h as [|y h IH]; intros z c sum Hc.
  - cbn [convolve_zip]. destruct c as [|c]; [done|]. rewrite (rwi_next_Some zero) by done. done.
  - destruct c as [|c]; [simpl in Hc; lia|]. cbn [convolve_zip]. rewrite (rwi_next_Some zero) by done. rewrite bind_Done.
    rewrite IH by (simpl in Hc; lia). cbn [length seq map foldl]. f_equal. replace (z - 1 - Z.of_nat 0)%Z with (z - 1)%Z by lia.
    cbn [lookup list_lookup default]. rewrite <- seq_shift, map_map. f_equal. apply map_ext. intros k.
    replace (z - 1 - Z.of_nat (S k))%Z with (z - 1 - 1 - Z.of_nat k)%Z by lia. done.
Qed.

Lemma convolve_iteration_spec x h i conv_len full : x <> [] -> length h <= full ->
  convolve_iteration zero add mul x h i conv_len full =
  Done (series zero add (length h) (fun k => mul (around zero x (Z.of_nat i + Z.of_nat conv_len - 1 - Z.of_nat k)) (default zero (h !! k)))).
Proof.
  intros Hx Hh. unfold convolve_iteration. rewrite wi_new_Done by (destruct x; [done|simpl; lia]). rewrite bind_Done.
  by rewrite convolve_zip_spec.
Qed.

Lemma circular_convolution_lookup shift x h i : i < length x ->
  circular_convolution zero add mul shift x h !! i =
  Some (series zero add (length h) (fun k => mul (around zero x (Z.of_nat i + Z.of_nat shift - 1 - Z.of_nat k)) (default zero (h !! k)))).
Proof. intros Hi. unfold circular_convolution. rewrite list_lookup_fmap, lookup_seq_lt by done. done. Qed.
Lemma circular_convolution_length shift x h : length (circular_convolution zero add mul shift x h) = length x.
Proof. unfold circular_convolution. by rewrite map_length, seq_length. Qed.

(** The scalar code *)
Lemma conv_window_short n m : m <= n -> conv_window n m = Done (0, m, m, (m + 1) / 2).
Proof.
  intros Hm. unfold conv_window. destruct (n <? m) eqn:E; [apply Nat.ltb_lt in E; lia|]. do 2 f_equal.
  pose proof (Nat.div_mod (m + 1) 2). pose proof (Nat.mod_upper_bound (m + 1) 2). pose proof (Nat.div_mod m 2). pose proof (Nat.mod_upper_bound m 2). lia.
Qed.

Theorem convolve_points_spec s sched x h dest : length h <= length x -> length dest = length x -> x <> [] \/ no_threads_for_nothing Large s ->
  convolve_points zero add mul s sched (length x) (length h) x h dest = Done (centred_convolution zero add mul x h).
Proof.
  intros Hh Hd Hx. unfold convolve_points. rewrite conv_window_short by done. rewrite bind_Done. rewrite slice_Done by lia. rewrite bind_Done.
  rewrite drop_0, Nat.sub_0_r, firstn_all.
  rewrite (execute_fill s sched (fun i => convolve_iteration zero add mul x h i ((length h + 1) / 2) (length h))
    (fun i => series zero add (length h) (fun k => mul (around zero x (Z.of_nat i + Z.of_nat ((length h + 1) / 2) - 1 - Z.of_nat k)) (default zero (h !! k))))).
  - by rewrite Hd.
  - intros i Hi. apply convolve_iteration_spec; [|done]. intros ->. rewrite Hd in Hi. simpl in Hi. lia.
  - destruct Hx as [Hx|Hx]; [left|by right]. intros ->. by destruct x.
Qed.

Lemma convolve_mat_iteration_spec (xs hs : list (list P)) i conv_len full :
  Forall (fun x => x <> []) xs -> Forall (fun h => length h <= full) hs ->
  convolve_mat_iteration zero add mul xs hs i conv_len full =
  Done (foldl add zero (concat (zip_with (fun x h =>
    map (fun k => mul (around zero x (Z.of_nat i + Z.of_nat conv_len - 1 - Z.of_nat k)) (default zero (h !! k))) (seq 0 (length h))) xs hs))).
Proof.
  unfold convolve_mat_iteration. intros Hxs.
  enough (E : forall sum hs, Forall (fun h => length h <= full) hs ->
    foldl (fun m '(data, other_iter) => sum ← m; it ← wi_new (length data) (Z.of_nat i + Z.of_nat conv_len) full; convolve_zip add mul data it other_iter sum)
      (Done sum) (zip xs hs) =
    Done (foldl add sum (concat (zip_with (fun x h =>
      map (fun k => mul (around zero x (Z.of_nat i + Z.of_nat conv_len - 1 - Z.of_nat k)) (default zero (h !! k))) (seq 0 (length h))) xs hs)))).
  { intros Hh. by apply E. }
  clear hs. induction Hxs as [|x xs Hx Hxs IH]; intros sum hs Hhs; [done|].
  destruct Hhs as [|h hs Hh Hhs]; [done|]. cbn [zip zip_with concat]. cbn [foldl]. rewrite bind_Done.
  rewrite wi_new_Done by (destruct x; [done|simpl; lia]). rewrite bind_Done, convolve_zip_spec by done. rewrite foldl_app. by apply IH.
Qed.

Theorem convolve_mat_points_spec (xs hs : list (list P)) conv_len full dest :
  Forall (fun x => length x = length dest) xs -> Forall (fun h => length h <= full) hs ->
  convolve_mat_points zero add mul xs hs conv_len full dest = Done (matrix_convolution zero add mul conv_len (length dest) xs hs).
Proof.
  intros Hx Hh. unfold convolve_mat_points. apply loop_fill. intros i d Hi Hd. rewrite convolve_mat_iteration_spec; [done | | done].
  eapply Forall_impl; [exact Hx|]. intros x Hl ->. simpl in Hl. lia.
Qed.
End convolution.

Section functions.
Context {A : Type} `{Num A} {P : Type} (zero : P) (add mul : P -> P -> P).

Lemma function_sum_spec (f : A -> P) ratio reach x i : x <> [] ->
  function_sum zero add mul f ratio reach (map (fun k => around zero x (i + Z.of_nat k)) (seq 0 (2 * reach + 1))) =
  series zero add (2 * reach + 1) (fun t => mul (around zero x (i + Z.of_nat t)) (f (nopp (counted reach t) * ratio)%num)).
Proof.
  intros Hx. unfold function_sum, series. set (n := 2 * reach + 1). clearbody n.
  enough (E : forall n start sum, foldl (fun '(sum, j) c => (add sum (mul c (f (nopp j * ratio)%num)), (j + n1)%num)) (sum, counted reach start)
       (map (fun k => around zero x (i + Z.of_nat k)) (seq start n)) =
     (foldl add sum (map (fun t => mul (around zero x (i + Z.of_nat t)) (f (nopp (counted reach t) * ratio)%num)) (seq start n)), counted reach (start + n))).
  { change (nopp (nofnat reach)) with (counted reach 0). rewrite E. done. }
  clear n. intros n. induction n as [|n IH]; intros start sum; [by rewrite Nat.add_0_r|].
  cbn [seq map foldl]. change (counted reach start + n1)%num with (counted reach (S start)). rewrite IH. do 2 f_equal. lia.
Qed.

Theorem convolve_function_points_spec (f : A -> P) ratio conv_len x dest : length dest = length x ->
  convolve_function_points zero add mul f ratio conv_len x dest =
  Done (function_convolution zero add mul counted f ratio (Nat.min conv_len (length x)) x).
Proof.
  intros Hd. unfold convolve_function_points. cbv zeta.
  replace (if length x <? conv_len then length x else conv_len) with (Nat.min conv_len (length x)).
  2:{ destruct (length x <? conv_len) eqn:E; [apply Nat.ltb_lt in E | apply Nat.ltb_ge in E]; lia. }
  set (r := Nat.min _ _). clearbody r. rewrite (loop_fill _ (fun i => series zero add (2 * r + 1) (fun t =>
    mul (around zero x (Z.of_nat i + Z.of_nat t - Z.of_nat r)) (f (nopp (counted r t) * ratio)%num)))).
  - unfold function_convolution. by rewrite Hd.
  - intros i d Hi Hl. assert (Hx : x <> []) by (intros ->; simpl in *; lia).
    rewrite wi_new_Done by (destruct x; [done|simpl; lia]). rewrite bind_Done, (items_forward zero) by done. rewrite bind_Done.
    f_equal. transitivity (function_sum zero add mul f ratio r (map (fun k => around zero x (Z.of_nat i - Z.of_nat r + Z.of_nat k)) (seq 0 (2 * r + 1)))).
    + f_equal. apply map_ext. intros k. f_equal. lia.
    + rewrite function_sum_spec by done. unfold series. f_equal. apply map_ext. intros k. do 2 f_equal. lia.
Qed.
End functions.

Section vectors.
Context {A : Type} `{Num A}.

Lemma into_buffer_reals b (v : dvec A) l f l' : reals v l -> lends b v (length l) -> length l' = length l ->
  (forall dest, length dest = length l -> f l dest = Done l') ->
  exists v' b', into_buffer as_reals (fun x => x) b v f = Done (v', b') /\ reals v' l' /\ same_meta v v'.
Proof.
  intros [Hc Hv] Hb Hl Hf. unfold into_buffer. pose proof (reals_len v l Hv) as Hn. rewrite Hn.
  destruct (borrow_lends n0 b v _ Hb) as (t & -> & Ht). rewrite bind_Done.
  pose proof Hv as Hv'. unfold vdata in Hv'. unfold len in Hn. rewrite Hn in Hv'. rewrite Hv', bind_Done. change (as_reals l) with (Done l). rewrite bind_Done.
  rewrite (slice_Done t) by lia. rewrite drop_0, Nat.sub_0_r, bind_Done, take_ge by lia. change (as_reals t) with (Done t). rewrite bind_Done, Hf by done. rewrite bind_Done.
  rewrite (splice_Done t) by lia. rewrite bind_Done. rewrite take_0, (drop_ge t) by lia. rewrite app_nil_r. cbn [app].
  destruct (trade_vdata b v l' (length l)) as (v' & b' & E & Hd & Hm); [done|done|].
  destruct (trade b l' (Model_Vec.data v)) as [st b'']. injection E as E1 E2. exists (set_data v st), b''.
  assert (Ev : set_data v st = v'). { rewrite <- E1, <- Hn. by destruct v. }
  rewrite Ev. split; [done|]. split; [|done]. split; [|done]. unfold is_complex in *. destruct Hm as (? & Hm2 & ?). congruence.
Qed.

Lemma into_buffer_cplx b (v : dvec A) c f c' : cplx v c -> lends b v (2 * length c) -> length c' = length c ->
  (forall dest, length dest = length c -> f c dest = Done c') ->
  exists v' b', into_buffer as_complex complex_to_array b v f = Done (v', b') /\ cplx v' c' /\ same_meta v v'.
Proof.
  intros [Hc Hv] Hb Hl Hf. unfold into_buffer. pose proof (reals_len v _ Hv) as Hn. rewrite complex_to_array_length in Hn. rewrite Hn.
  destruct (borrow_lends n0 b v _ Hb) as (t & -> & Ht). rewrite bind_Done.
  pose proof Hv as Hv'. unfold vdata in Hv'. unfold len in Hn. rewrite Hn in Hv'. rewrite Hv', bind_Done. unfold as_complex.
  rewrite array_to_complex_Done, bind_Done.
  rewrite (slice_Done t) by lia. rewrite drop_0, Nat.sub_0_r, bind_Done, take_ge by lia.
  destruct (exists_complex t) as [d ->]. { rewrite Ht. apply even_double. }
  rewrite complex_to_array_length in Ht. rewrite array_to_complex_Done, bind_Done, Hf by lia. rewrite bind_Done.
  rewrite (splice_Done (complex_to_array d)) by (rewrite !complex_to_array_length; lia). rewrite bind_Done, take_0.
  rewrite (drop_ge (complex_to_array d)) by (rewrite !complex_to_array_length; lia). rewrite app_nil_r. cbn [app].
  remember (2 * length c) as K eqn:HK.
  destruct (trade_vdata b v (complex_to_array c') K) as (v' & b' & E & Hd & Hm); [done| rewrite complex_to_array_length; lia |].
  destruct (trade b (complex_to_array c') (Model_Vec.data v)) as [st b'']. injection E as E1 E2. exists (set_data v st), b''.
  assert (Ev : set_data v st = v'). { rewrite <- E1, <- Hn. by destruct v. }
  rewrite Ev. split; [done|]. split; [|done]. split; [|done]. unfold is_complex in *. destruct Hm as (? & Hm2 & ?). congruence.
Qed.

Lemma vdata_again (o : dvec A) l : vdata o = Done l -> slice l 0 (len o) = Done l.
Proof. intros Hv. rewrite (reals_len o l Hv), slice_Done by lia. by rewrite drop_0, Nat.sub_0_r, firstn_all. Qed.

Theorem convolve_scalar_reals s sched b (v o : dvec A) x h : reals v x -> reals o h -> length h <= length x -> lends b v (length x) ->
  x <> [] \/ no_threads_for_nothing Large s ->
  exists v' b', convolve_signal_scalar s sched b v o = Done (v', b') /\ reals v' (centred_convolution n0 nadd nmul x h) /\ same_meta v v'.
Proof.
  intros Hx Hh Hl Hb Hs. unfold convolve_signal_scalar. rewrite (proj1 Hx). apply (into_buffer_reals b v x); [done | done | |].
  { apply circular_convolution_length. }
  intros dest Hd. destruct Hh as [Hc Hv]. rewrite Hv, bind_Done, (vdata_again o h Hv), bind_Done.
  rewrite (points_reals v x Hx), (points_reals o h) by (by split). by apply convolve_points_spec.
Qed.
Theorem convolve_scalar_cplx s sched b (v o : dvec A) x h : cplx v x -> cplx o h -> length h <= length x -> lends b v (2 * length x) ->
  x <> [] \/ no_threads_for_nothing Large s ->
  exists v' b', convolve_signal_scalar s sched b v o = Done (v', b') /\
    cplx v' (centred_convolution (n0, n0) complex_sum complex_product x h) /\ same_meta v v'.
Proof.
  intros Hx Hh Hl Hb Hs. unfold convolve_signal_scalar. rewrite (proj1 Hx). apply (into_buffer_cplx b v x); [done | done | |].
  { apply circular_convolution_length. }
  intros dest Hd. destruct Hh as [Hc Hv]. rewrite Hv, bind_Done, (vdata_again o _ Hv), bind_Done. unfold as_complex. rewrite array_to_complex_Done, bind_Done.
  rewrite (points_cplx v x Hx), (points_cplx o h) by (by split). by apply convolve_points_spec.
Qed.

Theorem convolve_function_reals f ratio reach b (v : dvec A) x : reals v x -> lends b v (length x) ->
  exists v' b', convolve_function_real f ratio reach b v = Done (v', b') /\ same_meta v v' /\
    reals v' (function_convolution n0 nadd nmul counted f ratio (Nat.min reach (length x)) x).
Proof.
  intros Hx Hb. destruct (into_buffer_reals b v x (convolve_function_points n0 nadd nmul f ratio reach)
    (function_convolution n0 nadd nmul counted f ratio (Nat.min reach (length x)) x)) as (v' & b' & ? & ? & ?); [done | done | | |].
  - unfold function_convolution. by rewrite map_length, seq_length.
  - intros dest Hd. by apply convolve_function_points_spec.
  - by exists v', b'.
Qed.
Theorem convolve_function_cplx f ratio reach b (v : dvec A) x : cplx v x -> lends b v (2 * length x) ->
  exists v' b', convolve_function_complex f ratio reach b v = Done (v', b') /\ same_meta v v' /\
    cplx v' (function_convolution (n0, n0) complex_sum complex_product counted f ratio (Nat.min reach (length x)) x).
Proof.
  intros Hx Hb. destruct (into_buffer_cplx b v x (convolve_function_points (n0, n0) cadd cmul f ratio reach)
    (function_convolution (n0, n0) complex_sum complex_product counted f ratio (Nat.min reach (length x)) x)) as (v' & b' & ? & ? & ?); [done | done | | |].
  - unfold function_convolution. by rewrite map_length, seq_length.
  - intros dest Hd. by apply convolve_function_points_spec.
  - by exists v', b'.
Qed.
End vectors.
