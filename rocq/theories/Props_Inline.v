(** Theorems for C68: the list type the library keeps its intermediate results in *)
From Verif Require Import Proof_Base Spec_Inline Proof_Inline.
From stdpp Require Import list_numbers tactics.

(** Whatever calls are made, a vector created for [n] elements does what a list does and gives the answers of a list, as long as the list stays within the
    limit: 64 elements, or no limit at all if it was created for more than 64 elements and [std] is available. *)
Theorem C68_like_a_list : forall {T} (zero : T) b n cs l answers, Forall (fun c => resizes c = false) cs ->
  list_calls (limit_of b n) [] cs l answers ->
  exists v, icalls zero (with_capacity b n) cs = Done (v, answers) /\ ielems v = l /\ ilen v = length l.
Proof.
  intros T zero b n cs l ans Hr Hc. destruct (iok_new (T := T) b n) as (_ & HL & HE). rewrite <- HE in Hc.
  destruct (icalls_list zero (limit_of b n) (with_capacity b n) cs l ans HL Hr Hc) as (v & E & El). exists v. unfold ilen. by rewrite El.
Qed.
Print Assumptions C68_like_a_list.
(** And it panics for everything else: positions which do not exist, and one element too many. *)
Theorem C68_panics : forall {T} (zero : T) b n cs, Forall (fun c => resizes c = false) cs ->
  (forall l answers, ~ list_calls (limit_of b n) [] cs l answers) -> icalls zero (with_capacity b n) cs = Panicked.
Proof.
  intros T zero b n cs Hr Hn. destruct (iok_new (T := T) b n) as (HO & HL & HE). apply (icalls_panics zero (limit_of b n)); [done|done|done|]. by rewrite HE.
Qed.
Print Assumptions C68_panics.
(** [of_size], used for all scratch space: any size with [std], and up to 64 without *)
Theorem C68_of_size : forall {T} (x : T) n,
  (exists v, of_size WithStd x n = Done v /\ ielems v = replicate n x) /\
  (n <= 64 -> exists v, of_size WithoutStd x n = Done v /\ ielems v = replicate n x) /\
  (64 < n -> of_size WithoutStd x n = Panicked).
Proof.
  intros T x n. assert (G : forall b, (fits (limit_of b n) n -> exists v, of_size b x n = Done v /\ ielems v = replicate n x) /\ (~ fits (limit_of b n) n -> of_size b x n = Panicked)).
  { intros b. destruct (iok_new (T := T) b n) as (HO & HL & HE). destruct (pushes (replicate n x) _ HO) as [P1 P2].
    unfold ilen in P1, P2. rewrite HE, HL, replicate_length in P1, P2. cbn [length Nat.add app] in P1, P2. unfold of_size. rewrite pushes_loop.
    split; [intros Hf; destruct (P1 Hf) as (v & E & El & _); by exists v|exact P2]. }
  split_and!.
  - apply G. unfold limit_of. destruct (Nat.leb_spec n 64); cbn; [lia|done].
  - intros Hn. by apply G.
  - intros Hn. apply G. cbn. lia.
Qed.
Print Assumptions C68_of_size.
(** [with_elem] and [empty] *)
Theorem C68_small : forall {T} (x : T) b, (exists v, with_elem b x = Done v /\ ielems v = [x]) /\ ielems (iempty (T := T) b) = [].
Proof. intros T x b. split; [destruct b; by eexists|by destruct b]. Qed.
Print Assumptions C68_small.

(** What deviates: [collect] panics from 65 elements on, also with [std], where such vectors may have any length. The rows of a matrix are collected like this. *)
Theorem C68_collect_refuted : forall {T} b (l : list T), (length l <= 64 -> exists v, from_iter b l = Done v /\ ielems v = l) /\ (64 < length l -> from_iter b l = Panicked).
Proof.
  intros T b l. destruct (iok_new (T := T) b INLINE_CAPACITY) as (HO & HL & HE). destruct (pushes l _ HO) as [P1 P2].
  unfold ilen in P1, P2. rewrite HE, HL in P1, P2. cbn [length Nat.add app] in P1, P2. unfold from_iter.
  replace (limit_of b INLINE_CAPACITY) with (Some 64) in P1, P2 by (by destruct b). cbn [fits] in P1, P2. split.
  - intros Hl. destruct (P1 Hl) as (v & E & El & _). by exists v.
  - intros Hl. apply P2. lia.
Qed.
Print Assumptions C68_collect_refuted.
(** [try_resize] of a vector with at most 64 elements reports success and leaves the length as it is; with more than 64 elements the length changes. *)
Theorem C68_resize_refuted : forall {T} (zero : T) l n, n <= 64 ->
  itry_resize zero (Inline l) n = (Inline l, true) /\
  forall cap, n <= cap -> exists v, itry_resize zero (Dynamic cap l) n = (v, true) /\ ilen v = n.
Proof.
  intros T zero l n Hn. cbn [itry_resize]. change INLINE_CAPACITY with 64. destruct (Nat.leb_spec n 64); [|lia]. split; [done|]. intros cap Hc.
  destruct (Nat.leb_spec n cap); [|lia]. eexists. split; [reflexivity|]. unfold ilen. cbn [ielems]. rewrite app_length, take_length, replicate_length. lia.
Qed.
Print Assumptions C68_resize_refuted.

(** Whatever is called, resizing included: the capacity is enough for the elements, with [std] also for the number which was asked for at first, and
    [try_resize] reports an error exactly beyond the capacity. A vector on the heap then gets the new length, filled up with zeros. *)
Theorem C68_capacity : forall {T} (zero : T) b n cs v answers, icalls zero (with_capacity b n) cs = Done (v, answers) ->
  ilen v <= icapacity v /\ (b = WithStd \/ n <= 64 -> n <= icapacity v) /\
  (forall m, (m <= icapacity v -> snd (itry_resize zero v m) = true) /\ (icapacity v < m -> itry_resize zero v m = (v, false))) /\
  (forall cap l m, v = Dynamic cap l -> m <= cap -> ielems (fst (itry_resize zero v m)) = take m (l ++ replicate (m - length l) zero)).
Proof.
  intros T zero b n cs v answers E.
  assert (G : exists k, roomy k (with_capacity (T := T) b n) /\ (b = WithStd \/ n <= 64 -> n <= k)).
  { unfold roomy, ilen. destruct b; cbn [with_capacity].
    - exists n. change INLINE_CAPACITY with 64. destruct (Nat.leb_spec n 64); cbn [ielems icapacity length]; change INLINE_CAPACITY with 64; lia.
    - exists 64. cbn [ielems icapacity length]. change INLINE_CAPACITY with 64. split; [lia|]. intros [?|?]; [done|lia]. }
  destruct G as (k & Hk & Hn). destruct (icalls_roomy zero k _ cs v answers Hk E) as [H1 H2]. split_and!.
  - exact H1.
  - intros Hb. specialize (Hn Hb). lia.
  - intros m. destruct v as [l|c l]; cbn [itry_resize icapacity].
    + split; intros Hm; [destruct (Nat.leb_spec m INLINE_CAPACITY); [done|lia]|destruct (Nat.leb_spec m INLINE_CAPACITY); [lia|done]].
    + split; intros Hm; (destruct (Nat.leb_spec m c); [done || lia|done || lia]).
  - intros cap l m -> Hm. cbn [itry_resize]. destruct (Nat.leb_spec m cap); [|lia]. cbn [fst ielems].
    destruct (Nat.le_gt_cases m (length l)) as [Hl|Hl].
    + replace (m - length l) with 0 by lia. cbn [replicate]. by rewrite !app_nil_r.
    + rewrite !take_ge; [done|rewrite app_length, replicate_length; lia|lia].
Qed.
Print Assumptions C68_capacity.

Example C68_example : exists v, icalls 0 (with_capacity WithStd 3) [Push 5; Append [1; 2]; Insert_at 1 9; Remove 0; Pop; Write_at 1 7] =
  Done (v, [Nothing; Nothing; Nothing; Some_elem (Some 5); Some_elem (Some 2); Nothing]) /\ ielems v = [9; 7] /\ ilen v = 2.
Proof.
  apply C68_like_a_list; [by repeat constructor|].
  apply (LSome _ _ _ [5]); [apply (LPush [])|cbn; lia|].
  apply (LSome _ _ _ [5; 1; 2]); [apply (LAppend [5])|cbn; lia|].
  apply (LSome _ _ _ [5; 9; 1; 2]); [apply (LInsert [5] 9 [1; 2])|cbn; lia|].
  apply (LSome _ _ _ [9; 1; 2]); [apply (LRemove [] 5 [9; 1; 2])|cbn; lia|].
  apply (LSome _ _ _ [9; 1]); [apply (LPop [9; 1] 2)|cbn; lia|].
  apply (LSome _ _ _ [9; 7]); [apply (LSet [9] 1 7 [])|cbn; lia|]. constructor.
Qed.
Example C68_example_panic : icalls 0 (with_capacity WithStd 64) (replicate 65 (Push 1)) = Panicked /\
  exists v, icalls 0 (with_capacity WithStd 65) (replicate 65 (Push 1)) = Done (v, replicate 65 Nothing) /\ ilen v = 65.
Proof. split; [vm_compute; reflexivity|]. eexists. split; [vm_compute; reflexivity|reflexivity]. Qed.
