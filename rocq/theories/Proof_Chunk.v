From Verif Require Export Proof_Base Spec_Par.

(** ** The chunk size *)

Lemma ceil_div_le a n : 0 < n -> a <= ceil_div a n * n.
Proof. intros H. unfold ceil_div. pose proof (Nat.div_mod (a + (n - 1)) n). pose proof (Nat.mod_upper_bound (a + (n - 1)) n). nia. Qed.

Lemma ceil_div_min a n c : 0 < n -> a <= c * n -> ceil_div a n <= c.
Proof.
  intros H Hc. unfold ceil_div. apply Nat.lt_succ_r, Nat.div_lt_upper_bound; nia.
Qed.

Lemma calc_chunk_size_spec l w n : 0 < w -> 0 < n ->
  exists cs, calc_chunk_size l w n = Done cs /\ cs mod w = 0 /\ l <= cs * n /\
    (forall c, c mod w = 0 -> l <= c * n -> cs <= c).
Proof.
  intros Hw Hn. unfold calc_chunk_size. destruct (n =? 0) eqn:E; [lia|]. cbv zeta.
  rewrite umod_Done by lia. rewrite bind_Done.
  pose proof (ceil_div_le l n Hn) as H1. set (q := ceil_div l n) in *.
  assert (Hmin : forall c, l <= c * n -> q <= c) by (intros; by apply ceil_div_min). clearbody q.
  pose proof (Nat.div_mod q w ltac:(lia)) as Hq. pose proof (Nat.mod_upper_bound q w ltac:(lia)) as Hr.
  eexists. split; [reflexivity|].
  destruct (0 <? q mod w) eqn:Er.
  - apply Nat.ltb_lt in Er.
    assert (Hs : q + (w - q mod w) = (q / w + 1) * w) by nia. rewrite Hs.
    split; [apply Nat.mod_mul; lia|]. split; [nia|].
    intros c Hc Hl. specialize (Hmin c Hl). pose proof (Nat.div_mod c w ltac:(lia)) as Hd.
    assert (q / w < c / w) by nia. nia.
  - apply Nat.ltb_ge in Er. split; [lia|]. split; [nia|]. auto.
Qed.

Lemma calc_chunk_size_unique l w n cs : 0 < w -> 0 < n ->
  cs mod w = 0 -> l <= cs * n -> (forall c, c mod w = 0 -> l <= c * n -> cs <= c) ->
  calc_chunk_size l w n = Done cs.
Proof.
  intros Hw Hn H1 H2 H3. destruct (calc_chunk_size_spec l w n Hw Hn) as (cs' & -> & H1' & H2' & H3').
  f_equal. apply Nat.le_antisymm; auto.
Qed.

Lemma calc_chunk_size_scale l w n r cs : 0 < w -> 0 < n -> 0 < r ->
  calc_chunk_size l w n = Done cs -> calc_chunk_size (r * l) (r * w) n = Done (r * cs).
Proof.
  intros Hw Hn Hr H. destruct (calc_chunk_size_spec l w n Hw Hn) as (cs' & H' & H1 & H2 & H3).
  rewrite H in H'. injection H' as <-.
  apply calc_chunk_size_unique; [nia | done | | nia |].
  - rewrite Nat.mul_mod_distr_l by lia. nia.
  - intros c Hc Hl. pose proof (Nat.div_mod c (r * w) ltac:(nia)) as Hd. rewrite Hc, Nat.add_0_r in Hd.
    rewrite Hd. replace (r * w * (c / (r * w))) with (r * (w * (c / (r * w)))) by lia.
    apply Nat.mul_le_mono_l. apply H3.
    + rewrite Nat.mul_comm. apply Nat.mod_mul. lia.
    + apply (Nat.mul_le_mono_pos_l _ _ r); [lia|]. nia.
Qed.

(** ** The pieces *)

Lemma chunks_fuel_lookup {A} fuel n (l : list A) i : 0 < n -> length l <= fuel ->
  chunks_fuel fuel n l !! i = if i * n <? length l then Some (take n (drop (i * n) l)) else None.
Proof.
  intros Hn. revert l i. induction fuel as [|fuel IH]; intros l i Hf.
  - destruct l; [|simpl in Hf; lia]. simpl. destruct (i * n <? 0) eqn:E; [lia|done].
  - destruct l as [|x l]; [simpl; destruct (i * n <? 0) eqn:E; [lia|done]|].
    cbn [chunks_fuel]. destruct i as [|i].
    + rewrite Nat.mul_0_l, drop_0. simpl. done.
    + change ((take n (x :: l) :: chunks_fuel fuel n (drop n (x :: l))) !! S i)
        with (chunks_fuel fuel n (drop n (x :: l)) !! i).
      rewrite IH; [|rewrite drop_length; simpl in *; lia].
      rewrite drop_drop, drop_length. replace (n + i * n) with (S i * n) by lia.
      destruct (i * n <? length (x :: l) - n) eqn:E1, (S i * n <? length (x :: l)) eqn:E2; try done; lia.
Qed.

Lemma chunks_fuel_concat {A} fuel n (l : list A) : 0 < n -> length l <= fuel -> concat (chunks_fuel fuel n l) = l.
Proof.
  intros Hn. revert l. induction fuel as [|fuel IH]; intros l Hf.
  - by destruct l; [|simpl in Hf; lia].
  - destruct l as [|x l]; [done|]. cbn [chunks_fuel concat].
    rewrite IH by (rewrite drop_length; simpl in *; lia). apply take_drop.
Qed.

Lemma chunks_fuel_length {A} fuel n (l : list A) : 0 < n -> length l <= fuel ->
  let m := length (chunks_fuel fuel n l) in length l <= m * n /\ (l <> [] -> (m - 1) * n < length l /\ 0 < m).
Proof.
  intros Hn Hf m. split.
  - destruct (decide (m * n < length l)) as [H|H]; [|lia].
    pose proof (chunks_fuel_lookup fuel n l m Hn Hf) as H1.
    apply Nat.ltb_lt in H. rewrite H in H1. apply lookup_lt_Some in H1. subst m. lia.
  - intros Hl. assert (0 < m).
    { subst m. destruct fuel, l; simpl in *; try done; lia. }
    split; [|lia]. destruct (decide ((m - 1) * n < length l)) as [H'|H']; [done|].
    pose proof (chunks_fuel_lookup fuel n l (m - 1) Hn Hf) as H1.
    apply Nat.nlt_ge, Nat.ltb_ge in H'. rewrite H' in H1. apply lookup_ge_None in H1. subst m. lia.
Qed.

(** [partition] of a non empty array *)
Lemma partition_spec {A} (array : list A) w n : 0 < w -> 0 < n -> array <> [] ->
  exists cs pieces, partition array w n = Done pieces /\ 0 < cs /\ cs mod w = 0 /\
    calc_chunk_size (length array) w n = Done cs /\
    calc_chunk_size (length array) w (length pieces) = Done cs /\
    0 < length pieces <= n /\ length array <= length pieces * cs /\ (length pieces - 1) * cs < length array /\
    concat pieces = array /\
    (forall i, i < length pieces -> pieces !! i = Some (take cs (drop (i * cs) array))).
Proof.
  intros Hw Hn Ha. destruct (calc_chunk_size_spec (length array) w n Hw Hn) as (cs & Hcs & H1 & H2 & H3).
  assert (Hl : 0 < length array) by (destruct array; simpl; [done | lia]).
  assert (0 < cs) by (destruct cs; lia).
  exists cs, (chunks_fuel (length array) cs array). unfold partition, chunks. rewrite Hcs, bind_Done.
  destruct (cs =? 0) eqn:E; [lia|].
  destruct (chunks_fuel_length (length array) cs array) as [Hm1 Hm2]; [lia | lia |]. destruct (Hm2 Ha) as [Hm3 Hm4].
  set (m := length (chunks_fuel (length array) cs array)) in *.
  assert (m <= n).
  { assert ((m - 1) * cs < n * cs) by lia. assert (m - 1 < n) by nia. lia. }
  split_and!; try done.
  - apply calc_chunk_size_unique; try done; [lia|]. intros c Hc Hlc. apply H3; [done|]. nia.
  - apply chunks_fuel_concat; lia.
  - intros i Hi. rewrite chunks_fuel_lookup by lia. destruct (i * cs <? length array) eqn:E'; [done|].
    exfalso. assert (i <= m - 1) by lia. nia.
Qed.

(** ** The ranges *)

Lemma partition_in_ranges_spec l w m cs : 0 < m -> calc_chunk_size l w m = Done cs ->
  exists ranges, partition_in_ranges l w m = Done ranges /\ length ranges = m /\
    (forall i, i < m -> ranges !! i = Some (i * cs, if i <? m - 1 then (i + 1) * cs else l)).
Proof.
  intros Hm Hcs. unfold partition_in_ranges. rewrite Hcs, bind_Done.
  set (f := fun (i : nat) '(ranges, sum) => _).
  destruct (loop_inv (fun k '(ranges, sum) =>
     length (ranges : list (nat * nat)) = k /\ (k < m -> sum = k * cs) /\
     (forall i, i < k -> ranges !! i = Some (i * cs, if i <? m - 1 then (i + 1) * cs else l))) m 0 f ([], 0))
    as ([ranges sum] & -> & Hlen & _ & Hlk).
  - split_and!; [done | lia | intros; lia].
  - intros k [ranges sum] Hk (H1 & H2 & H3). subst f. eexists. split; [reflexivity|]. cbv beta iota.
    split_and!.
    + rewrite app_length. simpl. lia.
    + intros Hk'. destruct (k <? m - 1) eqn:E; [|lia]. rewrite H2 by lia. lia.
    + intros i Hi. destruct (decide (i < k)) as [Hlt|Hge].
      * rewrite lookup_app_l by lia. auto.
      * assert (i = k) as -> by lia. rewrite lookup_app_r by lia. rewrite H1, Nat.sub_diag. simpl.
        rewrite H2 by lia. destruct (k <? m - 1); f_equal; f_equal; lia.
  - rewrite bind_Done. exists ranges. simpl in *. split_and!; [done | done | done].
Qed.

Lemma ranges_of_pieces {A} (array : list A) w n : 0 < w -> 0 < n -> array <> [] ->
  exists pieces ranges, partition array w n = Done pieces /\
    partition_in_ranges (length array) w (length pieces) = Done ranges /\
    length pieces <= n /\ tiles array w pieces ranges.
Proof.
  intros Hw Hn Ha. destruct (partition_spec array w n Hw Hn Ha) as
    (cs & pieces & Hp & Hcs0 & Hcsm & Hc1 & Hc2 & Hm & Hl1 & Hl2 & Hconc & Hlk).
  destruct (partition_in_ranges_spec (length array) w (length pieces) cs) as (ranges & Hr & Hrl & Hrk); [lia | done |].
  exists pieces, ranges. split_and!; [done | done | lia |].
  unfold tiles. split_and!; [done | done | | |].
  - rewrite (Hrk 0) by lia. eexists. reflexivity.
  - intros i s e Hi. assert (Hi' : i < length pieces) by (rewrite <- Hrl; by apply lookup_lt_Some in Hi).
    rewrite Hrk in Hi by done. injection Hi as <- <-. rewrite (Hlk i Hi').
    assert (i * cs < length array) by (assert (i <= length pieces - 1) by lia; nia).
    split_and!.
    + destruct (i <? length pieces - 1) eqn:E; nia.
    + destruct (i <? length pieces - 1) eqn:E; [|lia].
      apply Nat.ltb_lt in E. nia.
    + destruct (i <? length pieces - 1) eqn:E; f_equal.
      * by replace ((i + 1) * cs - i * cs) with cs by lia.
      * apply Nat.ltb_ge in E. rewrite !take_ge; [done | rewrite drop_length; lia |].
        rewrite drop_length. assert (i = length pieces - 1) by lia. subst i. nia.
    + apply Nat.mod_divide in Hcsm; [|lia]. destruct Hcsm as [k ->].
      replace (i * (k * w)) with (i * k * w) by lia. apply Nat.mod_mul. lia.
  - intros i s e s' e' Hi Hi'.
    assert (Hlt : i + 1 < length pieces) by (rewrite <- Hrl; by apply lookup_lt_Some in Hi').
    rewrite Hrk in Hi, Hi' by lia. injection Hi as <- <-. injection Hi' as <- <-.
    destruct (i <? length pieces - 1) eqn:E; [done|lia].
Qed.

(** The last range ends at the end of the array, all others end on a multiple of [w]. *)
Lemma partition_lengths {A} (array : list A) w n pieces : 0 < w -> 0 < n -> array <> [] ->
  partition array w n = Done pieces ->
  pieces <> [] /\ Forall (fun c => c <> []) pieces /\
  forall i c, pieces !! i = Some c -> i + 1 < length pieces -> length c mod w = 0.
Proof.
  intros Hw Hn Ha Hp. destruct (partition_spec array w n Hw Hn Ha) as
    (cs & pieces' & Hp' & Hcs0 & Hcsm & Hc1 & Hc2 & Hm & Hl1 & Hl2 & Hconc & Hlk).
  rewrite Hp in Hp'. injection Hp' as <-. split_and!.
  - intros ->. simpl in Hm. lia.
  - apply Forall_lookup. intros i c Hi ->. assert (Hi' := Hi). apply lookup_lt_Some in Hi'. rewrite Hlk in Hi by done.
    injection Hi as Hi. apply (f_equal length) in Hi. rewrite take_length, drop_length in Hi. simpl in Hi.
    assert (i <= length pieces - 1) by lia. nia.
  - intros i c Hi Hlt. rewrite Hlk in Hi by lia. injection Hi as <-. rewrite take_length, drop_length.
    rewrite Nat.min_l; [done|]. assert (i + 1 <= length pieces - 1) by lia. nia.
Qed.

(** ** Scheduling *)

Lemma run_steps_Panicked {A} (steps : list (step A)) : foldl (fun m s => m ≫= s) Panicked steps = Panicked.
Proof. induction steps; simpl; [done|]. apply IHsteps. Qed.

Lemma run_steps_cons {A} (s : step A) rest c : run_steps (s :: rest) c = s c ≫= run_steps rest.
Proof. unfold run_steps. simpl. destruct (s c); simpl; [done|]. apply run_steps_Panicked. Qed.

Lemma run_steps_app {A} (s1 s2 : list (step A)) c : run_steps (s1 ++ s2) c = run_steps s1 c ≫= run_steps s2.
Proof.
  revert c. induction s1 as [|s s1 IH]; intros c; [done|]. rewrite <- app_comm_cons, 2!run_steps_cons.
  destruct (s c); simpl; [apply IH | done].
Qed.

Lemma finish_pool_step {A} (pool : list (task A)) k c s rest :
  pool !! k = Some (c, s :: rest) ->
  finish_pool pool = s c ≫= (fun c' => finish_pool (<[k := (c', rest)]> pool)).
Proof.
  revert k. induction pool as [|[c0 steps0] pool IH]; intros k Hk; [done|].
  destruct k as [|k].
  - injection Hk as -> ->. cbn [finish_pool]. rewrite run_steps_cons. destruct (s c); [|done].
    rewrite !bind_Done. done.
  - cbn [finish_pool]. rewrite (IH k Hk). destruct (run_steps steps0 c0) eqn:E.
    + rewrite bind_Done. destruct (s c); simpl; [|done]. by rewrite E.
    + simpl. destruct (s c); simpl; [|done]. by rewrite E.
Qed.

Theorem run_pool_any {A} (sched : list nat) (pool : list (task A)) : run_pool sched pool = finish_pool pool.
Proof.
  revert pool. induction sched as [|k sched IH]; intros pool; [done|]. simpl.
  destruct (pool !! k) as [[c [|s rest]]|] eqn:E; [apply IH | | apply IH].
  rewrite (finish_pool_step pool k c s rest E). destruct (s c); simpl; [apply IH | done].
Qed.

(** ** In place operations *)

Lemma finish_pool_split {A} w (F : nat -> list A -> run (list A)) (f : nat -> nat -> list (step A)) pieces off :
  splittable w F -> (forall off c, c ∈ pieces -> run_steps (f off (length c)) c = F off c) ->
  pieces <> [] -> (forall i c, pieces !! i = Some c -> i + 1 < length pieces -> length c mod w = 0) ->
  (r ← finish_pool (map (fun '(off, c) => (c, f off (length c))) (with_offsets off pieces)); Done (concat r)) =
  F off (concat pieces).
Proof.
  intros Hs Hf. revert off Hf. induction pieces as [|c pieces IH]; intros off Hf Hne Hm; [done|].
  destruct pieces as [|c' pieces].
  - cbn [with_offsets map finish_pool concat]. rewrite Hf by apply elem_of_list_here.
    rewrite app_nil_r. destruct (F off c) eqn:E; [|done]. rewrite !bind_Done. simpl. by rewrite app_nil_r.
  - remember (c' :: pieces) as rest eqn:Er. assert (Hrest : rest <> []) by (by subst).
    cbn [with_offsets map finish_pool concat]. rewrite Hf by apply elem_of_list_here.
    rewrite Hs by (apply (Hm 0 c); [done | subst; simpl; lia]).
    rewrite <- IH; [ | | done |].
    + destruct (F off c) eqn:E; [|done]. rewrite !bind_Done.
      destruct (finish_pool _); [|done]. rewrite !bind_Done. done.
    + intros off' x Hx. apply Hf. by apply elem_of_list_further.
    + intros i x Hx Hi. apply (Hm (S i) x); [done | simpl in *; lia].
Qed.

Theorem execute_partial_any {A} co s sched (array : list A) w f F :
  0 < w -> array <> [] -> splittable w F ->
  (forall off c, run_steps (f off (length c)) c = F off c) ->
  execute_partial co s sched array w f = F 0 array.
Proof.
  intros Hw Ha Hs Hf. unfold execute_partial. cbv zeta.
  set (n := determine_number_of_chunks _ _ _). destruct (1 <? n) eqn:E; [|apply Hf].
  apply Nat.ltb_lt in E.
  destruct (ranges_of_pieces array w n) as (pieces & ranges & Hp & _ & _ & Ht); [lia | lia | done |].
  rewrite Hp, bind_Done, run_pool_any.
  destruct (partition_lengths array w n pieces) as (H1 & H2 & H3); [lia | lia | done | done |].
  rewrite (finish_pool_split w F f pieces 0); [| done | auto | done | done].
  f_equal. by destruct Ht as (-> & _).
Qed.

(** Pieces together with their ranges are pieces together with their positions. *)
Lemma tiles_offsets {A} (array : list A) w pieces ranges : tiles array w pieces ranges ->
  zip pieces ranges = map (fun '(off, c) => (c, (off, off + length c))) (with_offsets 0 pieces).
Proof.
  intros (Hc & Hl & H0 & Hi & Hn).
  assert (Hlen : forall i c s e, pieces !! i = Some c -> ranges !! i = Some (s, e) -> e = s + length c).
  { intros i c s e Hpi Hri. destruct (Hi i s e Hri) as (? & ? & Hpi' & _). rewrite Hpi in Hpi'. injection Hpi' as ->.
    rewrite take_length, drop_length. lia. }
  clear Hi Hc array.
  assert (H0' : ranges <> [] -> exists e, ranges !! 0 = Some (0, e)) by done. clear H0.
  set (o := 0) in H0' at 2 |- *. clearbody o.
  revert ranges o Hl H0' Hn Hlen. induction pieces as [|c pieces IH]; intros [|[s e] ranges] o Hl H0' Hn Hlen; try done.
  cbn [zip_with with_offsets map]. destruct (H0' ltac:(done)) as (e0 & He0). injection He0 as -> ->.
  assert (e0 = o + length c) as -> by (by apply (Hlen 0)). f_equal.
  apply IH.
  - simpl in Hl. lia.
  - intros Hr. destruct ranges as [|[s' e'] ranges]; [done|]. exists e'. simpl.
    rewrite <- (Hn 0 o (o + length c) s' e'); done.
  - intros i s1 e1 s2 e2 H1 H2. by apply (Hn (S i) s1 e1 s2 e2).
  - intros i x s1 e1 H1 H2. by apply (Hlen (S i) x s1 e1).
Qed.

Theorem execute_with_range_any {A} co s sched (array : list A) w f F :
  0 < w -> array <> [] -> splittable w F ->
  (forall off c, run_steps (f (off, off + length c) (length c)) c = F off c) ->
  execute_with_range co s sched array w f = F 0 array.
Proof.
  intros Hw Ha Hs Hf. unfold execute_with_range. cbv zeta.
  set (n := determine_number_of_chunks _ _ _). destruct (1 <? n) eqn:E; [|apply (Hf 0)].
  apply Nat.ltb_lt in E.
  destruct (ranges_of_pieces array w n) as (pieces & ranges & Hp & Hr & _ & Ht); [lia | lia | done |].
  rewrite Hp, bind_Done, Hr, bind_Done, run_pool_any, (tiles_offsets _ _ _ _ Ht), map_map.
  destruct (partition_lengths array w n pieces) as (H1 & H2 & H3); [lia | lia | done | done |].
  erewrite (map_ext _ (fun '(off, c) => (c, f (off, off + length c) (length c)))) by (by intros [? ?]).
  rewrite (finish_pool_split w F (fun off n => f (off, off + n) n) pieces 0); [| done | auto | done | done].
  f_equal. by destruct Ht as (-> & _).
Qed.

(** ** Source to destination *)

Lemma zip_offsets {A} (array : list A) w pieces ranges (g : nat -> nat) :
  tiles array w pieces ranges ->
  zip (with_offsets 0 pieces) (map (fun '(s, e) => (g s, g e)) ranges) =
  map (fun '(off, c) => ((off, c), (g off, g (off + length c)))) (with_offsets 0 pieces).
Proof.
  intros Ht. pose proof (tiles_offsets _ _ _ _ Ht) as Hz. destruct Ht as (_ & Hl & _).
  revert Hz Hl. set (o := 0). clearbody o. revert o ranges.
  induction pieces as [|c pieces IH]; intros o [|[s e] ranges] Hz Hl; try done.
  cbn [zip_with with_offsets map] in *. injection Hz as -> -> Hz. f_equal. apply IH; [done | simpl in Hl; lia].
Qed.

Theorem from_src_to_dest_any {A} co s sched k (target : list A) w f F :
  0 < w -> 0 < k -> target <> [] -> splittable w F ->
  (forall off c, run_steps (f (k * off, k * (off + length c)) off (length c)) c = F off c) ->
  from_src_to_dest co s sched (k * length target) (k * w) target w f = F 0 target.
Proof.
  intros Hw Hk Ha Hs Hf. unfold from_src_to_dest. cbv zeta.
  set (n := determine_number_of_chunks _ _ _). destruct (1 <? n) eqn:E.
  2: { specialize (Hf 0 target). rewrite Nat.mul_0_r, Nat.add_0_l in Hf. done. }
  apply Nat.ltb_lt in E.
  destruct (ranges_of_pieces target w n) as (pieces & ranges & Hp & Hr & _ & Ht); [lia | lia | done |].
  rewrite Hp, bind_Done.
  assert (Hr' : partition_in_ranges (k * length target) (k * w) (length pieces) =
                Done (map (fun '(s, e) => (k * s, k * e)) ranges)).
  { destruct (partition_lengths target w n pieces) as (H1 & _ & _); [lia | lia | done | done |].
    assert (0 < length pieces) by (destruct pieces; [done | simpl; lia]).
    destruct (calc_chunk_size_spec (length target) w (length pieces)) as (cs & Hcs & _); [lia | lia |].
    rename H into Hpl. pose proof (calc_chunk_size_scale _ _ _ k _ Hw Hpl Hk Hcs) as Hcs'.
    destruct (partition_in_ranges_spec _ _ _ _ Hpl Hcs) as (r1 & E1 & L1 & K1).
    destruct (partition_in_ranges_spec _ _ _ _ Hpl Hcs') as (r2 & E2 & L2 & K2).
    rewrite Hr in E1. injection E1 as <-. rewrite E2. f_equal. apply list_eq. intros i.
    rewrite list_lookup_fmap. destruct (decide (i < length pieces)) as [Hi|Hi].
    - rewrite K1, K2 by done. simpl. destruct (i <? length pieces - 1); do 2 f_equal; nia.
    - rewrite !lookup_ge_None_2 by lia. done. }
  rewrite Hr', bind_Done, run_pool_any, (zip_offsets _ _ _ _ (fun x => k * x) Ht), map_map.
  destruct (partition_lengths target w n pieces) as (H1 & H2 & H3); [lia | lia | done | done |].
  erewrite (map_ext _ (fun '(off, c) => (c, f (k * off, k * (off + length c)) off (length c)))) by (by intros [? ?]).
  rewrite (finish_pool_split w F (fun off n => f (k * off, k * (off + n)) off n) pieces 0); [| done | auto | done | done].
  f_equal. by destruct Ht as (-> & _).
Qed.

(** ** Aggregations *)

Lemma arrivals_perm {R} order (l : list R) : arrivals order l ≡ₚ l.
Proof.
  revert l. induction order as [|k order IH]; intros l; [done|]. simpl.
  destruct (l !! k) as [x|] eqn:E; [|apply IH]. rewrite IH.
  rewrite <- (take_drop_middle l k x E) at 3. by rewrite Permutation_middle.
Qed.

(** Every permutation is the order of arrival for some choice. *)
Lemma arrivals_complete {R} (l l' : list R) : l' ≡ₚ l -> exists order, arrivals order l = l'.
Proof.
  revert l. induction l' as [|x l' IH]; intros l Hp.
  - apply Permutation_nil in Hp as ->. by exists [].
  - assert (Hx : x ∈ l) by (rewrite <- Hp; left). apply elem_of_list_lookup in Hx as [k Hk].
    destruct (IH (take k l ++ drop (S k) l)) as [order Ho].
    + apply (Permutation_cons_inv (a := x)). rewrite Hp. rewrite <- (take_drop_middle l k x Hk) at 1.
      by rewrite Permutation_middle.
    + exists (k :: order). simpl. by rewrite Hk, Ho.
Qed.

Lemma all_done_map {T R} (f : T -> run R) (g : T -> R) l : (forall x, x ∈ l -> f x = Done (g x)) -> all_done (map f l) = Done (map g l).
Proof.
  induction l as [|x l IH]; intros H; [done|]. cbn [map all_done]. rewrite H by left. rewrite bind_Done, IH; [done|].
  intros y Hy. apply H. by right.
Qed.

Theorem map_on_array_chunks_any {A R} co s order (array : list A) w (f : list A -> nat * nat -> run R) g :
  0 < w -> array <> [] -> (forall c r, f c r = Done (g c r)) ->
  exists pieces ranges rs, map_on_array_chunks co s order array w f = Done rs /\
    tiles array w pieces ranges /\ rs ≡ₚ zip_with g pieces ranges.
Proof.
  intros Hw Ha Hf. unfold map_on_array_chunks. cbv zeta.
  set (n := determine_number_of_chunks _ _ _). destruct (1 <? n) eqn:E.
  - apply Nat.ltb_lt in E.
    destruct (ranges_of_pieces array w n) as (pieces & ranges & Hp & Hr & _ & Ht); [lia | lia | done |].
    rewrite Hp, bind_Done, Hr, bind_Done.
    rewrite (all_done_map _ (fun '(c, r) => g c r)) by (intros [? ?] _; apply Hf). rewrite bind_Done.
    exists pieces, ranges. eexists. split; [reflexivity|]. split; [done|]. rewrite arrivals_perm.
    clear. revert ranges. induction pieces; intros [|]; simpl; [done | done | done |]. by rewrite IHpieces.
  - rewrite Hf, bind_Done. exists [array], [(0, length array)]. eexists. split; [reflexivity|]. split; [|done].
    unfold tiles. assert (0 < length array) by (destruct array; simpl; [done | lia]). split_and!.
    + simpl. apply app_nil_r.
    + done.
    + eexists. done.
    + intros [|i] s' e Hi; [|done]. injection Hi as <- <-. simpl. rewrite Nat.sub_0_r, drop_0, take_ge by done.
      split_and!; try done. rewrite Nat.mod_0_l; lia.
    + intros [|i] ???? H1 H2; done.
Qed.

Theorem get_chunked_results_any {A R} co s order (array : list A) w (f : list A -> nat * nat -> run R) g :
  0 < w -> (forall c r, f c r = Done (g c r)) ->
  exists pieces ranges rs, get_chunked_results co s order array w f = Done rs /\
    tiles array w pieces ranges /\ rs ≡ₚ zip_with g pieces ranges.
Proof.
  intros Hw Hf. destruct array as [|x array].
  - exists [], [], []. split_and!; [done | | done]. unfold tiles. split_and!; done.
  - apply map_on_array_chunks_any; done.
Qed.

Lemma zip_with_flip' {A B C} (f : A -> B -> C) l k : zip_with f l k = zip_with (fun y x => f x y) k l.
Proof. revert k. induction l as [|x l IH]; intros [|y k]; try done. simpl. f_equal. apply IH. Qed.

Theorem get_zipped_any {A R} co s order (a b : list A) w (f : list A -> nat * nat -> list A -> run R) g :
  0 < w -> length a = length b -> (forall c r, f a r c = Done (g r c)) ->
  exists pieces ranges rs, get_zipped co s order a w b w f = Done rs /\
    tiles b w pieces ranges /\ rs ≡ₚ zip_with g ranges pieces.
Proof.
  intros Hw Hl Hf. destruct a as [|x a].
  - destruct b; [|done]. exists [], [], []. split_and!; [done | | done]. unfold tiles. split_and!; done.
  - destruct (map_on_array_chunks_any co s order b w (fun c r => f (x :: a) r c) (fun c r => g r c) Hw) as (pieces & ranges & rs & E & Ht & Hp).
    { intros ->. done. } { intros c r. apply Hf. }
    exists pieces, ranges, rs. split_and!; [|done|by rewrite zip_with_flip'].
    rewrite <- E. unfold get_zipped, map_on_array_chunks. cbv zeta. by rewrite Hl.
Qed.

(** ** Functions which can be split *)

Lemma splittable_imap {A} w (g : nat -> A -> A) : splittable w (fun off l => Done (imap (fun i => g (off + i)) l)).
Proof.
  intros off l1 l2 _. rewrite !bind_Done, imap_app. do 2 f_equal. apply imap_ext. intros i x _. simpl. f_equal. lia.
Qed.

Lemma splittable_map {A} w (g : A -> A) : splittable w (fun _ l => Done (map g l)).
Proof. intros off l1 l2 _. by rewrite !bind_Done, map_app. Qed.
