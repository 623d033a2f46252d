From Verif Require Export Proof_Sum Spec_Stats.

Section stats.
Context {P : Type} `{StatOps P}.

Lemma stats_worker_snoc s (l : list P) x : stats_worker s (l ++ [x]) = stats_add (stats_worker s l) x (s + length l).
Proof.
  unfold stats_worker. rewrite foldl_app. cbn [foldl].
  assert (E : forall (l : list P) st j, snd (foldl (fun '(st, j) x => (stats_add st x j, j + 1)) (st, j) l) = j + length l).
  { clear. induction l as [|x l IH]; intros st j; cbn [foldl length snd]; [lia|]. rewrite IH. lia. }
  specialize (E l stats_empty s). destruct (foldl _ _ l) as [st j]. cbn [snd] in E. subst j. done.
Qed.

(** The state of a worker: the plain sums *)
Definition raw_of (s : nat) (l : list P) (st : statistics P) : Prop :=
  st_sum st = foldl t_add t_zero l /\ st_count st = length l /\ st_rms st = foldl t_add t_zero (map (fun x => t_mul x x) l) /\
  st_average st = t_zero.

Lemma stats_worker_raw s (l : list P) : raw_of s l (stats_worker s l).
Proof.
  induction l as [|x l IH] using rev_ind; [done|]. rewrite stats_worker_snoc. destruct IH as (H1 & H2 & H3 & H4).
  unfold raw_of, stats_add. cbn [st_sum st_count st_rms st_average]. rewrite H1, H2, H3, H4. unfold compose.
  rewrite map_app, !foldl_app, app_length. split_and!; done.
Qed.

Lemma ordered_sub lt (l l' : list P) : ordered lt l -> l' ⊆ l -> ordered lt l'.
Proof. intros (H1 & H2 & H3) Hs. split_and!; intros; eauto. Qed.

Lemma comparable_sub (l l' : list P) : comparable l -> l' ⊆ l -> comparable l'.
Proof.
  intros [H1 H2] Hs. split; [|eauto]. eapply ordered_sub; [done|]. intros x. rewrite !elem_of_cons. intros [?|[?|?]]; auto.
Qed.

Lemma stats_worker_extremes s (l : list P) : comparable l ->
  match l with [] => st_min (stats_worker s l) = t_min0 /\ st_max (stats_worker s l) = t_max0 /\
                  st_min_index (stats_worker s l) = 0 /\ st_max_index (stats_worker s l) = 0
  | _ => (exists i, (st_min_index (stats_worker s l) = s + i \/ (i = 0 /\ st_min_index (stats_worker s l) = 0 /\ st_min (stats_worker s l) = t_min0)) /\ first_min t_lt l i (st_min (stats_worker s l))) /\
       (exists i, (st_max_index (stats_worker s l) = s + i \/ (i = 0 /\ st_max_index (stats_worker s l) = 0 /\ st_max (stats_worker s l) = t_max0)) /\ first_max t_lt l i (st_max (stats_worker s l))) end.
Proof.
  induction l as [|x l IH] using rev_ind; [done|]. intros Hc.
  assert (Hsub : comparable l). { eapply comparable_sub; [done|]. intros y. rewrite elem_of_app. auto. }
  specialize (IH Hsub). rewrite stats_worker_snoc. destruct Hc as [(Hirr & Htr & Hntr) Hb].
  assert (Hx : x ∈ l ++ [x]) by (apply elem_of_app; right; by left).
  destruct (Hb x Hx) as [Hbmin Hbmax].
  set (st := stats_worker s l) in *. unfold stats_add.
  assert (Hin : forall j y, (l ++ [x]) !! j = Some y -> l !! j = Some y \/ (j = length l /\ y = x)).
  { intros j y Hj. apply lookup_app_Some in Hj as [?|[? Hj]]; [by left|]. right. apply list_lookup_singleton_Some in Hj as [? <-]. split; [lia|done]. }
  destruct l as [|x0 l0].
  - destruct IH as (-> & -> & -> & ->). cbn [app length Nat.add st_min st_max st_min_index st_max_index].
    assert (Hone : forall j y, [x] !! j = Some y -> j = 0 /\ y = x) by (intros j y Hj; by apply list_lookup_singleton_Some in Hj as [-> <-]).
    assert (Hxx : t_lt x x = false) by (apply Hirr; do 2 right; left).
    split; exists 0; (split; [| split; [|intros j y [-> ->]%Hone; split; [|lia]]]).
    + destruct (t_lt x t_min0); [left; lia | right; done].
    + destruct Hbmin as [<-|Ht]; [rewrite Hxx|rewrite Ht]; done.
    + destruct Hbmin as [<-|Ht]; [rewrite Hxx|rewrite Ht]; done.
    + destruct (t_lt t_max0 x); [left; lia | right; done].
    + destruct Hbmax as [<-|Ht]; [rewrite Hxx|rewrite Ht]; done.
    + destruct Hbmax as [<-|Ht]; [rewrite Hxx|rewrite Ht]; done.
  - destruct IH as [(i & Hi & Hl & Hmin) (i' & Hi' & Hl' & Hmax)]. cbn [st_min st_max st_min_index st_max_index].
    set (l := x0 :: l0) in *. assert (Hne : match l ++ [x] with [] => False | _ => True end) by (destruct l; done).
    destruct (l ++ [x]) as [|y0 lx] eqn:El; [done|]. clear Hne. rewrite <- El in *. clear El y0 lx.
    assert (Hmem : forall j y, l !! j = Some y -> y ∈ t_min0 :: t_max0 :: l ++ [x]).
    { intros j y Hj. apply elem_of_list_lookup_2 in Hj. do 2 right. apply elem_of_app. by left. }
    assert (Hmx : x ∈ t_min0 :: t_max0 :: l ++ [x]) by (do 2 right; done).
    assert (Hasym : forall a b, a ∈ t_min0 :: t_max0 :: l ++ [x] -> b ∈ t_min0 :: t_max0 :: l ++ [x] -> t_lt a b = true -> t_lt b a = false).
    { intros a b Ha Hbb Hab. destruct (t_lt b a) eqn:E; [|done]. rewrite <- (Hirr a Ha). symmetry. eapply (Htr a b a); done. }
    split.
    + destruct (t_lt x (st_min st)) eqn:E.
      * exists (length l). split; [left; lia|]. split; [rewrite lookup_app_r, Nat.sub_diag by lia; done|].
        assert (Hless : forall j y, l !! j = Some y -> t_lt x y = true).
        { intros j y Hj. destruct (t_lt x y) eqn:E2; [done|]. destruct (Hmin j y Hj) as [Hm _].
          rewrite (Hntr x y (st_min st)) in E; eauto. }
        intros j y [Hj|[-> ->]]%Hin.
        -- split; [apply Hasym; eauto | eauto].
        -- split; [by apply Hirr | lia].
      * exists i. split; [exact Hi|]. pose proof (lookup_lt_Some _ _ _ Hl). split; [by rewrite lookup_app_l by done|].
        intros j y [Hj|[-> ->]]%Hin; [eauto|]. split; [done | lia].
    + destruct (t_lt (st_max st) x) eqn:E.
      * exists (length l). split; [left; lia|]. split; [rewrite lookup_app_r, Nat.sub_diag by lia; done|].
        assert (Hless : forall j y, l !! j = Some y -> t_lt y x = true).
        { intros j y Hj. destruct (t_lt y x) eqn:E2; [done|]. destruct (Hmax j y Hj) as [Hm _].
          rewrite (Hntr (st_max st) y x) in E; eauto. }
        intros j y [Hj|[-> ->]]%Hin.
        -- split; [apply Hasym; eauto | eauto].
        -- split; [by apply Hirr | lia].
      * exists i'. split; [done|]. pose proof (lookup_lt_Some _ _ _ Hl'). split; [by rewrite lookup_app_l by done|].
        intros j y [Hj|[-> ->]]%Hin; [eauto|]. split; [done | lia].
Qed.

(** What [merge] makes of a single part *)
Definition finished (st : statistics P) : statistics P :=
  Stats (t_add t_zero (st_sum st)) (st_count st) (t_divn (t_add t_zero (st_sum st)) (st_count st))
    (t_sqrt (t_divn (t_add t_zero (st_rms st)) (st_count st))) (st_min st) (st_min_index st) (st_max st) (st_max_index st).

Lemma stats_merge_one (st : statistics P) : stats_merge [st] = finished st.
Proof.
  unfold stats_merge, merge_step. cbn [foldl st_sum st_count st_average st_rms st_min st_min_index st_max st_max_index].
  destruct (t_lt (st_max st) (st_max st)); cbn [negb andb]; [done|]. destruct (t_lt (st_min st) (st_min st)); done.
Qed.

Lemma finished_worker (l : list P) : zero_neutral P -> comparable l -> statistics_of l (finished (stats_worker 0 l)).
Proof.
  intros Hz Hc. destruct (stats_worker_raw 0 l) as (H1 & H2 & H3 & H4). split.
  - unfold totals_of, finished. cbn [st_sum st_count st_average st_rms]. rewrite !Hz, H1, H2, H3. done.
  - intros Hne. pose proof (stats_worker_extremes 0 l Hc) as He. destruct l as [|x l]; [done|].
    destruct He as [(i & Hi & Hm) (i' & Hi' & Hm')]. unfold finished. cbn [st_min st_max st_min_index st_max_index].
    assert (st_min_index (stats_worker 0 (x :: l)) = i) as -> by (destruct Hi as [?|(? & ? & _)]; lia).
    assert (st_max_index (stats_worker 0 (x :: l)) = i') as -> by (destruct Hi' as [?|(? & ? & _)]; lia). done.
Qed.

Lemma finished_totals (l : list P) : zero_neutral P -> totals_of l (finished (stats_worker 0 l)).
Proof.
  intros Hz. destruct (stats_worker_raw 0 l) as (H1 & H2 & H3 & H4).
  unfold totals_of, finished. cbn [st_sum st_count st_average st_rms]. rewrite !Hz, H1, H2, H3. done.
Qed.

(** *** Buckets *)

Lemma bucket_length k b (l lb : list P) : 0 < k -> b < k -> is_bucket k b l lb -> b = length l mod k -> length lb = length l / k.
Proof.
  intros Hk Hb Hl Hm. pose proof (Nat.div_mod (length l) k ltac:(lia)) as Hd.
  apply Nat.le_antisymm; apply Nat.le_ngt; intros Hlt.
  - destruct (lookup_lt_is_Some_2 lb (length l / k)) as [x Hx]; [done|]. rewrite Hl in Hx. apply lookup_lt_Some in Hx. nia.
  - assert (Hx : lb !! length lb = None) by (apply lookup_ge_None; lia). rewrite Hl in Hx. apply lookup_ge_None in Hx. nia.
Qed.

Lemma bucket_unique k b (l l1 l2 : list P) : is_bucket k b l l1 -> is_bucket k b l l2 -> l1 = l2.
Proof. intros H1 H2. apply list_eq. intros i. by rewrite H1, H2. Qed.

Lemma bucket_snoc_in k b (l lb : list P) x : 0 < k -> b < k -> is_bucket k b l lb -> b = length l mod k -> is_bucket k b (l ++ [x]) (lb ++ [x]).
Proof.
  intros Hk Hb Hl Hm. pose proof (bucket_length k b l lb Hk Hb Hl Hm) as Hlen. pose proof (Nat.div_mod (length l) k ltac:(lia)) as Hd.
  intros j. destruct (decide (j < length lb)) as [Hj|Hj].
  - rewrite lookup_app_l by done. rewrite lookup_app_l by nia. apply Hl.
  - rewrite lookup_app_r by lia. rewrite lookup_app_r by nia. destruct (decide (j = length lb)) as [->|].
    + rewrite Nat.sub_diag. replace (b + length lb * k - length l) with 0 by nia. done.
    + rewrite !lookup_ge_None_2; [done | simpl; nia | simpl; lia].
Qed.

Lemma bucket_snoc_out k b (l lb : list P) x : 0 < k -> b < k -> is_bucket k b l lb -> b <> length l mod k -> is_bucket k b (l ++ [x]) lb.
Proof.
  intros Hk Hb Hl Hm j. rewrite Hl. destruct (decide (b + j * k < length l)) as [Hj|Hj]; [by rewrite lookup_app_l|].
  rewrite lookup_app_r by lia. destruct (decide (b + j * k = length l)) as [E|].
  - exfalso. apply Hm. rewrite <- E. rewrite Nat.mod_add by lia. symmetry. by apply Nat.mod_small.
  - rewrite !lookup_ge_None_2; [done | simpl; lia | lia].
Qed.

Lemma split_worker_spec k (l : list P) : 0 < k ->
  exists rs, foldl (fun m x => '(results, j) ← m; i ← umod j k; st ← rd results i;
                        results ← wr results i (stats_add st x (j / k)); Done (results, j + 1))
        (Done (replicate k stats_empty, 0)) l = Done (rs, length l) /\
    length rs = k /\ forall b, b < k -> exists lb, is_bucket k b l lb /\ rs !! b = Some (stats_worker 0 lb).
Proof.
  intros Hk. induction l as [|x l IH] using rev_ind.
  - exists (replicate k stats_empty). rewrite replicate_length. split_and!; try done. intros b Hb. exists []. split; [done|].
    by rewrite lookup_replicate_2.
  - destruct IH as (rs & E & Hl & Hb). rewrite foldl_app, E. cbn [foldl]. rewrite bind_Done, umod_Done by lia. rewrite bind_Done.
    assert (Hm : length l mod k < k) by (apply Nat.mod_upper_bound; lia).
    destruct (Hb _ Hm) as (lb & Hlb & Hst). rewrite (proj2 (rd_Done _ _ _) Hst), bind_Done, wr_Done by lia. rewrite bind_Done.
    eexists. rewrite app_length. cbn [length]. split; [done|]. rewrite insert_length. split; [done|]. intros b Hbk.
    destruct (decide (b = length l mod k)) as [Eb|Hne].
    + exists (lb ++ [x]). rewrite Eb. split; [by apply bucket_snoc_in|].
      rewrite list_lookup_insert by lia. rewrite stats_worker_snoc. do 2 f_equal. rewrite (bucket_length k _ l lb Hk Hm Hlb eq_refl). done.
    + destruct (Hb b Hbk) as (lb' & Hlb' & Hst'). exists lb'. split; [by apply bucket_snoc_out|].
      by rewrite list_lookup_insert_ne.
Qed.

Lemma split_worker_Done k (l : list P) : 0 < k ->
  exists rs, split_worker k 0 l = Done rs /\ length rs = k /\
    forall b, b < k -> exists lb, is_bucket k b l lb /\ rs !! b = Some (stats_worker 0 lb).
Proof.
  intros Hk. destruct (split_worker_spec k l Hk) as (rs & E & Hl & Hb). exists rs. unfold split_worker. rewrite E. done.
Qed.

Lemma merge_cols_one (rs : list (statistics P)) : length rs <= 16 -> merge_cols [rs] = Done (map finished rs).
Proof.
  intros Hl. unfold merge_cols. set (f := fun i results => _).
  destruct (loop_inv (fun i r => r = map finished (take i rs)) (length rs) 0 f []) as (r & -> & Hr).
  - done.
  - intros i r Hi ->. unfold f. cbn [map all_done].
    destruct (rd_lt rs i) as (st & Hst & ->); [lia|]. rewrite !bind_Done. cbn [length]. change (1 <=? STATS_VEC_CAPACITY) with true.
    cbn [assert_]. rewrite bind_Done. rewrite map_length, take_length.
    destruct (_ <=? STATS_VEC_CAPACITY) eqn:E; [|unfold STATS_VEC_CAPACITY in E; lia]. cbn [assert_]. rewrite bind_Done.
    eexists. split; [done|]. rewrite stats_merge_one, Nat.add_1_r. rewrite (take_S_r _ _ _ Hst), map_app. done.
  - f_equal. subst r. rewrite Nat.add_0_l, take_ge by lia. done.
Qed.
End stats.

(** ** Merging several parts *)
Section merge.
Context {P : Type} `{StatOps P}.

(** The finished sums of a list of parts *)
Lemma merge_fold_sums (stats : list (statistics P)) (acc : statistics P) :
  let r := foldl merge_step acc stats in
  st_sum r = foldl t_add (st_sum acc) (map st_sum stats) /\
  st_rms r = foldl t_add (st_rms acc) (map st_rms stats) /\
  st_count r = foldl Nat.add (st_count acc) (map st_count stats).
Proof.
  revert acc. induction stats as [|st stats IH]; intros acc; [done|]. cbn [foldl map]. apply (IH (merge_step acc st)).
Qed.

Lemma foldl_foldr {Q} (add : Q -> Q -> Q) (zero : Q) (l : list Q) x :
  (forall a b c, add a (add b c) = add (add a b) c) -> (forall a b, add a b = add b a) -> (forall a, add a zero = a) ->
  foldl add x l = add x (foldr add zero l).
Proof.
  intros Ha Hc Hz. revert x. induction l as [|y l IH]; intros x; cbn [foldl foldr]; [by rewrite Hz|].
  rewrite IH. by rewrite Ha.
Qed.

Lemma foldr_perm {Q} (add : Q -> Q -> Q) (zero : Q) (l l' : list Q) :
  (forall a b c, add a (add b c) = add (add a b) c) -> (forall a b, add a b = add b a) -> l ≡ₚ l' -> foldr add zero l = foldr add zero l'.
Proof.
  intros Ha Hc. induction 1 as [|x l l' _ IH|x y l|l1 l2 l3 _ IH1 _ IH2]; cbn [foldr]; [done | by rewrite IH | | by rewrite IH1].
  rewrite !Ha. f_equal. apply Hc.
Qed.

Lemma foldr_app_add {Q} (add : Q -> Q -> Q) (zero : Q) (l l' : list Q) :
  (forall a b c, add a (add b c) = add (add a b) c) -> (forall a, add zero a = a) ->
  foldr add zero (l ++ l') = add (foldr add zero l) (foldr add zero l').
Proof.
  intros Ha Hz. induction l as [|x l IH]; cbn [foldr app]; [by rewrite Hz|]. rewrite IH. apply Ha.
Qed.

Lemma foldr_concat {Q} (add : Q -> Q -> Q) (zero : Q) (ls : list (list Q)) :
  (forall a b c, add a (add b c) = add (add a b) c) -> (forall a, add zero a = a) ->
  foldr add zero (concat ls) = foldr add zero (map (foldr add zero) ls).
Proof.
  intros Ha Hz. induction ls as [|l ls IH]; cbn [concat map foldr]; [done|]. rewrite foldr_app_add by done. by rewrite IH.
Qed.

Lemma foldr_count (ls : list (list P)) : foldr Nat.add 0 (map length ls) = length (concat ls).
Proof. induction ls as [|l ls IH]; cbn [concat map foldr]; [done|]. rewrite app_length. lia. Qed.

(** Merging keeps the greatest of the maxima *)
Lemma merge_fold_max (D : P -> Prop) (stats : list (statistics P)) (acc : statistics P) :
  (forall x, D x -> t_lt x x = false) ->
  (forall x y z, D x -> D y -> D z -> t_lt x y = false -> t_lt y z = false -> t_lt x z = false) ->
  (forall x y, D x -> D y -> t_lt x y = true -> t_lt y x = false) ->
  D (st_max acc) -> (forall st, st ∈ stats -> D (st_max st)) ->
  let r := foldl merge_step acc stats in
  (exists st, st ∈ acc :: stats /\ st_max r = st_max st /\ st_max_index r = st_max_index st) /\
  (forall st, st ∈ acc :: stats -> t_lt (st_max r) (st_max st) = false).
Proof.
  intros Hirr Hntr Hasym. revert acc. induction stats as [|st stats IH]; intros acc Ha Hs.
  - cbn [foldl]. split; [exists acc; split_and!; [left | done | done]|]. intros st Hst. apply elem_of_list_singleton in Hst as ->. auto.
  - cbn [foldl]. assert (Hd : D (st_max (merge_step acc st))).
    { unfold merge_step. cbn [st_max]. destruct (t_lt _ _); [apply Hs; left | done]. }
    destruct (IH (merge_step acc st) Hd) as [(s' & Hin & H1 & H2) Hle]; [intros; apply Hs; by right|].
    set (r := foldl merge_step (merge_step acc st) stats) in *. split.
    + apply elem_of_cons in Hin as [->|Hin].
      * unfold merge_step in H1, H2. cbn [st_max st_max_index] in H1, H2. destruct (t_lt (st_max acc) (st_max st)).
        -- exists st. split_and!; [right; left | done | done].
        -- exists acc. split_and!; [left | done | done].
      * exists s'. split_and!; [do 2 right; done | done | done].
    + assert (Hdr : D (st_max r)).
      { rewrite H1. apply elem_of_cons in Hin as [->|Hin]; [done|]. apply Hs. by right. }
      assert (Hstep : t_lt (st_max r) (st_max (merge_step acc st)) = false) by (apply Hle; left).
      intros s Hsin. apply elem_of_cons in Hsin as [->|Hsin]; [|apply elem_of_cons in Hsin as [->|Hsin]].
      * eapply Hntr; [done | exact Hd | done | done |]. unfold merge_step. cbn [st_max].
        destruct (t_lt (st_max acc) (st_max st)) eqn:E; [|by apply Hirr]. apply Hasym; [done | apply Hs; left | done].
      * eapply Hntr; [done | exact Hd | apply Hs; left | done |]. unfold merge_step. cbn [st_max].
        destruct (t_lt (st_max acc) (st_max st)) eqn:E; [|done]. apply Hirr, Hs. left.
      * apply Hle. by right.
Qed.

(** ... and the least of the minima if no part has a greater maximum than the first *)
Lemma merge_fold_min (D : P -> Prop) (stats : list (statistics P)) (acc : statistics P) :
  (forall x, D x -> t_lt x x = false) ->
  (forall x y z, D x -> D y -> D z -> t_lt x y = false -> t_lt y z = false -> t_lt x z = false) ->
  (forall x y, D x -> D y -> t_lt x y = true -> t_lt y x = false) ->
  D (st_min acc) -> (forall st, st ∈ stats -> D (st_min st)) -> (forall st, st ∈ stats -> t_lt (st_max acc) (st_max st) = false) ->
  let r := foldl merge_step acc stats in
  (exists st, st ∈ acc :: stats /\ st_min r = st_min st /\ st_min_index r = st_min_index st) /\
  (forall st, st ∈ acc :: stats -> t_lt (st_min st) (st_min r) = false).
Proof.
  intros Hirr Hntr Hasym. revert acc. induction stats as [|st stats IH]; intros acc Ha Hs Hmx.
  - cbn [foldl]. split; [exists acc; split_and!; [left | done | done]|]. intros st Hst. apply elem_of_list_singleton in Hst as ->. auto.
  - cbn [foldl]. assert (Em : t_lt (st_max acc) (st_max st) = false) by (apply Hmx; left).
    assert (Hm : st_max (merge_step acc st) = st_max acc) by (unfold merge_step; cbn [st_max]; by rewrite Em).
    assert (Hmin : st_min (merge_step acc st) = if t_lt (st_min st) (st_min acc) then st_min st else st_min acc)
      by (unfold merge_step; cbn [st_min]; by rewrite Em).
    assert (Hmini : st_min_index (merge_step acc st) = if t_lt (st_min st) (st_min acc) then st_min_index st else st_min_index acc)
      by (unfold merge_step; cbn [st_min_index]; by rewrite Em).
    assert (Hd : D (st_min (merge_step acc st))). { rewrite Hmin. destruct (t_lt (st_min st) _); [apply Hs; left | done]. }
    destruct (IH (merge_step acc st) Hd) as [(s' & Hin & H1 & H2) Hle];
      [intros; apply Hs; by right | intros; rewrite Hm; apply Hmx; by right |].
    set (r := foldl merge_step (merge_step acc st) stats) in *. split.
    + apply elem_of_cons in Hin as [->|Hin].
      * rewrite Hmin in H1. rewrite Hmini in H2. destruct (t_lt (st_min st) (st_min acc)).
        -- exists st. split_and!; [right; left | done | done].
        -- exists acc. split_and!; [left | done | done].
      * exists s'. split_and!; [do 2 right; done | done | done].
    + assert (Hdr : D (st_min r)).
      { rewrite H1. apply elem_of_cons in Hin as [->|Hin]; [done|]. apply Hs. by right. }
      assert (Hstep : t_lt (st_min (merge_step acc st)) (st_min r) = false) by (apply Hle; left).
      intros s Hsin. apply elem_of_cons in Hsin as [->|Hsin]; [|apply elem_of_cons in Hsin as [->|Hsin]].
      * eapply Hntr; [done | exact Hd | done | | done]. rewrite Hmin.
        destruct (t_lt (st_min st) (st_min acc)) eqn:E; [|by apply Hirr]. apply Hasym; [apply Hs; left | done | done].
      * eapply Hntr; [apply Hs; left | exact Hd | done | | done]. rewrite Hmin.
        destruct (t_lt (st_min st) (st_min acc)) eqn:E; [|done]. apply Hirr, Hs. left.
      * apply Hle. by right.
Qed.
(** Exactly the parts which don't raise the maximum take part in the minimum *)
Lemma merge_fold_counted (D : P -> Prop) (stats : list (statistics P)) (acc : statistics P) :
  (forall x, D x -> t_lt x x = false) ->
  (forall x y z, D x -> D y -> D z -> t_lt x y = false -> t_lt y z = false -> t_lt x z = false) ->
  (forall x y, D x -> D y -> t_lt x y = true -> t_lt y x = false) ->
  D (st_max acc) -> D (st_min acc) -> (forall st, st ∈ stats -> D (st_max st) /\ D (st_min st)) ->
  let counts i st := stats !! i = Some st /\ (t_lt (st_max acc) (st_max st) = false \/
    exists j s, j < i /\ stats !! j = Some s /\ t_lt (st_max s) (st_max st) = false) in
  let r := foldl merge_step acc stats in
  (st_min r = st_min acc /\ st_min_index r = st_min_index acc \/
   exists i st, counts i st /\ st_min r = st_min st /\ st_min_index r = st_min_index st) /\
  t_lt (st_min acc) (st_min r) = false /\
  (forall i st, counts i st -> t_lt (st_min st) (st_min r) = false).
Proof.
  intros Hirr Hntr Hasym Ha Hb. induction stats as [|x stats IH] using rev_ind; intros Hs.
  - cbn. split_and!; [by left | by apply Hirr |]. intros i st [Hi _]. by rewrite lookup_nil in Hi.
  - assert (Hs' : forall st, st ∈ stats -> D (st_max st) /\ D (st_min st)) by (intros st Hst; apply Hs, elem_of_app; by left).
    destruct (Hs x) as [Hxm Hxn]; [apply elem_of_app; right; by apply elem_of_list_singleton|].
    destruct (merge_fold_max D stats acc Hirr Hntr Hasym Ha) as [(sm & Hsm & Em & _) Hle]; [intros st Hst; by apply Hs'|].
    specialize (IH Hs'). cbv zeta in IH |- *. rewrite foldl_app. cbn [foldl].
    set (r := foldl merge_step acc stats) in *. destruct IH as (Hwho & Hacc & Hall).
    assert (Hrm : D (st_max r)). { rewrite Em. apply elem_of_cons in Hsm as [->|Hsm]; [done | by apply Hs']. }
    assert (Hrn : D (st_min r)).
    { destruct Hwho as [[-> _]|(i & st & [Hi _] & -> & _)]; [done|]. apply Hs'. by eapply elem_of_list_lookup_2. }
    assert (Hold : forall i st, i < length stats ->
      (((stats ++ [x]) !! i = Some st /\ (t_lt (st_max acc) (st_max st) = false \/
        exists j s, j < i /\ (stats ++ [x]) !! j = Some s /\ t_lt (st_max s) (st_max st) = false)) <->
       (stats !! i = Some st /\ (t_lt (st_max acc) (st_max st) = false \/
        exists j s, j < i /\ stats !! j = Some s /\ t_lt (st_max s) (st_max st) = false)))).
    { intros i st Hi. rewrite lookup_app_l by lia. split; intros [H1 H2]; (split; [done|]);
        (destruct H2 as [?|(j & s & Hj & Hjs & Hlt)]; [by left | right; exists j, s]).
      - rewrite lookup_app_l in Hjs by lia. done.
      - rewrite lookup_app_l by lia. done. }
    assert (Hnew : forall st, (stats ++ [x]) !! length stats = Some st -> st = x).
    { intros st. rewrite list_lookup_middle by done. congruence. }
    unfold merge_step. cbn [st_min st_min_index]. destruct (t_lt (st_max r) (st_max x)) eqn:Emx; cbn [negb andb].
    + split_and!; [|done|].
      * destruct Hwho as [?|(i & st & Hc & ?)]; [by left|]. right. exists i, st. split; [|done].
        apply Hold; [|done]. destruct Hc as [Hc _]. by eapply lookup_lt_Some.
      * intros i st Hc. destruct (decide (i < length stats)) as [Hi|Hi]; [apply (Hall i), Hold; done|].
        exfalso. assert (i = length stats) as ->.
        { destruct Hc as [Hc _]. apply lookup_lt_Some in Hc. rewrite app_length in Hc. simpl in Hc. lia. }
        destruct Hc as [Hst Hc]. apply Hnew in Hst as ->.
        assert (E : t_lt (st_max r) (st_max x) = false); [|congruence].
        destruct Hc as [Hc|(j & s & Hj & Hjs & Hlt)].
        -- apply (Hntr _ (st_max acc)); try done. apply Hle. left.
        -- rewrite lookup_app_l in Hjs by lia. apply elem_of_list_lookup_2 in Hjs.
           apply (Hntr _ (st_max s)); try done; [by apply Hs' | apply Hle; by right].
    + assert (Hcx : (stats ++ [x]) !! length stats = Some x /\ (t_lt (st_max acc) (st_max x) = false \/
        exists j s, j < length stats /\ (stats ++ [x]) !! j = Some s /\ t_lt (st_max s) (st_max x) = false)).
      { split; [by rewrite list_lookup_middle|]. rewrite Em in Emx. apply elem_of_cons in Hsm as [->|Hsm]; [by left|]. right.
        apply elem_of_list_lookup in Hsm as [j Hj]. exists j, sm. pose proof (lookup_lt_Some _ _ _ Hj).
        split_and!; [done | by rewrite lookup_app_l by lia | done]. }
      assert (Hall' : forall m, D m -> t_lt (st_min r) m = false -> t_lt (st_min x) m = false ->
        t_lt (st_min acc) m = false /\ forall i st, (stats ++ [x]) !! i = Some st /\ (t_lt (st_max acc) (st_max st) = false \/
        exists j s, j < i /\ (stats ++ [x]) !! j = Some s /\ t_lt (st_max s) (st_max st) = false) -> t_lt (st_min st) m = false).
      { intros m Hm H1 H2. split; [by apply (Hntr _ (st_min r))|]. intros i st Hc.
        destruct (decide (i < length stats)) as [Hi|Hi].
        - apply (Hntr _ (st_min r)); try done; [|apply (Hall i), Hold; done].
          destruct Hc as [Hc _]. rewrite lookup_app_l in Hc by done. apply Hs'. by eapply elem_of_list_lookup_2.
        - assert (i = length stats) as ->.
          { destruct Hc as [Hc _]. apply lookup_lt_Some in Hc. rewrite app_length in Hc. simpl in Hc. lia. }
          destruct Hc as [Hst _]. by apply Hnew in Hst as ->. }
      destruct (t_lt (st_min x) (st_min r)) eqn:Emn.
      * split; [right; by exists (length stats), x|]. apply Hall'; [done | by apply Hasym | by apply Hirr].
      * split; [|apply Hall'; [done | by apply Hirr | done]].
        destruct Hwho as [?|(i & st & Hc & ?)]; [by left|]. right. exists i, st. split; [|done].
        apply Hold; [|done]. destruct Hc as [Hc _]. by eapply lookup_lt_Some.
Qed.
End merge.

Lemma lookup_tiles {Q} (l : list Q) w pieces ranges i s e p j x : tiles l w pieces ranges ->
  ranges !! i = Some (s, e) -> pieces !! i = Some p -> p !! j = Some x -> l !! (s + j) = Some x.
Proof.
  intros (_ & _ & _ & Hi & _) Hr Hp Hj. destruct (Hi i s e Hr) as (H1 & H2 & H3 & _). rewrite Hp in H3. injection H3 as ->.
  pose proof (lookup_lt_Some _ _ _ Hj) as Hlt. rewrite take_length, drop_length in Hlt.
  rewrite lookup_take, lookup_drop in Hj by lia. done.
Qed.

(** Every element is in a piece *)
Lemma in_tiles {Q} (l : list Q) w pieces ranges j x : tiles l w pieces ranges -> l !! j = Some x ->
  exists i s e p, ranges !! i = Some (s, e) /\ pieces !! i = Some p /\ x ∈ p.
Proof.
  intros (Hc & Hl & _ & Hi & _) Hj. apply elem_of_list_lookup_2 in Hj. rewrite <- Hc in Hj.
  apply elem_of_list_In, in_concat in Hj as (p & Hp & Hx). apply elem_of_list_In in Hp, Hx. apply elem_of_list_lookup in Hp as [i Hp].
  destruct (lookup_lt_is_Some_2 ranges i) as [[s e] Hr]; [rewrite Hl; by apply lookup_lt_Some in Hp|]. exists i, s, e, p. done.
Qed.

Theorem merge_any_order {P} `{StatOps P} (l : list P) pieces ranges sts :
  (forall a b c : P, t_add a (t_add b c) = t_add (t_add a b) c) -> (forall a b : P, t_add a b = t_add b a) -> zero_neutral P ->
  l <> [] -> tiles l 1 pieces ranges -> sts ≡ₚ zip_with (fun p r => stats_worker (fst r) p) pieces ranges -> comparable l ->
  let st := stats_merge sts in
  totals_of l st /\ some_max t_lt l (st_max_index st) (st_max st) /\
  ((forall first rest, sts = first :: rest -> forall part, part ∈ rest -> t_lt (st_max first) (st_max part) = false) ->
   some_min t_lt l (st_min_index st) (st_min st)) /\
  (exists i part, takes_part sts i part /\ st_min st = st_min part /\ st_min_index st = st_min_index part) /\
  (forall i part, takes_part sts i part -> t_lt (st_min part) (st_min st) = false).
Proof.
  intros Ha Hcm Hz0 Hne Ht Hp Hc. assert (Hz : forall a : P, t_add a t_zero = a) by (intros a; rewrite Hcm; apply Hz0).
  set (parts := zip_with _ _ _) in *.
  assert (Hlen : length ranges = length pieces) by (by destruct Ht as (_ & ? & _)).
  assert (Hpart : forall i part, parts !! i = Some part -> exists p s e, pieces !! i = Some p /\ ranges !! i = Some (s, e) /\ part = stats_worker s p).
  { intros i part Hi. unfold parts in Hi. apply lookup_zip_with_Some in Hi as (p & [s e] & -> & H1 & H2). exists p, s, e. done. }
  assert (Hpieces : pieces <> []). { intros ->. destruct Ht as (Hcc & _). by rewrite <- Hcc in Hne. }
  assert (Hnonempty : forall i p s e, pieces !! i = Some p -> ranges !! i = Some (s, e) -> p <> []).
  { intros i p s e H1 H2 ->. destruct Ht as (_ & _ & _ & Hi & _). destruct (Hi i s e H2) as (H3 & H4 & H5 & _).
    rewrite H1 in H5. injection H5 as H5. apply (f_equal length) in H5. rewrite take_length, drop_length in H5. simpl in H5. lia. }
  assert (Hsub : forall i p, pieces !! i = Some p -> p ⊆ l).
  { intros i p Hi x Hx. destruct Ht as (Hcc & _). rewrite <- Hcc. apply elem_of_list_In, in_concat. exists p.
    split; apply elem_of_list_In; [by apply elem_of_list_lookup_2 in Hi | done]. }
  assert (Hsts : sts <> []).
  { intros ->. apply Permutation_length in Hp. unfold parts in Hp. rewrite zip_with_length in Hp.
    assert (0 < length pieces) by (destruct pieces; [done | simpl; lia]). cbn [length] in Hp. lia. }
  assert (Hsum : forall (get : statistics P -> P) f, (forall s p, get (stats_worker s p) = foldl t_add t_zero (map f p)) ->
     foldr t_add t_zero (map get sts) = foldl t_add t_zero (map f l)).
  { intros get f Hg. rewrite (foldr_perm t_add t_zero _ (map get parts)) by (done || by apply Permutation_map).
    rewrite (foldl_foldr t_add t_zero) by done. rewrite Hz0. destruct Ht as (Hcc & _). rewrite <- Hcc.
    rewrite concat_map. rewrite foldr_concat by done. f_equal. unfold parts. clear -Hlen Hg Ha Hcm Hz Hz0.
    revert ranges Hlen. induction pieces as [|p pieces IH]; intros [|r ranges] Hlen; try done. cbn [zip_with map].
    rewrite IH by (simpl in Hlen; lia). rewrite Hg. rewrite (foldl_foldr t_add t_zero) by done. by rewrite Hz0. }
  assert (Hcount : foldr Nat.add 0 (map st_count sts) = length l).
  { rewrite (foldr_perm Nat.add 0 _ (map st_count parts)) by (try lia; by apply Permutation_map).
    destruct Ht as (Hcc & _). rewrite <- Hcc, <- foldr_count. f_equal. unfold parts. clear -Hlen.
    revert ranges Hlen. induction pieces as [|p pieces IH]; intros [|r ranges] Hlen; try done. cbn [zip_with map].
    rewrite IH by (simpl in Hlen; lia). f_equal. by destruct (stats_worker_raw (fst r) p) as (_ & ? & _). }
  assert (Hs1 := Hsum st_sum (fun x => x)). rewrite map_id in Hs1.
  specialize (Hs1 ltac:(intros s p; rewrite map_id; by destruct (stats_worker_raw s p) as (? & _))).
  assert (Hs2 := Hsum st_rms (fun x => t_mul x x) ltac:(intros s p; by destruct (stats_worker_raw s p) as (_ & _ & ? & _))).
  clear Hsum. destruct sts as [|first sts]; [done|]. clear Hsts.
  unfold stats_merge. set (start := Stats t_zero 0 t_zero t_zero (st_min first) (st_min_index first) (st_max first) (st_max_index first)).
  set (D := fun x => x ∈ t_min0 :: t_max0 :: l).
  destruct Hc as [(Hirr & Htr & Hntr) Hb].
  assert (Hasym : forall x y, D x -> D y -> t_lt x y = true -> t_lt y x = false).
  { intros a b Hda Hdb Hab. destruct (t_lt b a) eqn:E; [|done]. rewrite <- (Hirr a Hda). symmetry. eapply (Htr a b a); done. }
  assert (Hmem : forall part, part ∈ first :: sts -> exists i p s e, pieces !! i = Some p /\ ranges !! i = Some (s, e) /\ part = stats_worker s p).
  { intros part Hin. rewrite Hp in Hin. apply elem_of_list_lookup in Hin as [i Hi].
    destruct (Hpart i part Hi) as (p & s & e & ? & ? & ->). exists i, p, s, e. done. }
  assert (Hext : forall part, part ∈ first :: sts -> exists i p s e, pieces !! i = Some p /\ ranges !! i = Some (s, e) /\ part = stats_worker s p /\
     (exists j, (st_min_index part = s + j \/ st_min_index part = 0 /\ st_min part = t_min0) /\ first_min t_lt p j (st_min part)) /\
     (exists j, (st_max_index part = s + j \/ st_max_index part = 0 /\ st_max part = t_max0) /\ first_max t_lt p j (st_max part))).
  { intros part Hin. destruct (Hmem part Hin) as (i & p & s & e & H1 & H2 & ->). exists i, p, s, e. split_and!; try done.
    - pose proof (stats_worker_extremes s p) as He. specialize (Hnonempty _ _ _ _ H1 H2). destruct p as [|x p]; [done|].
      destruct He as [(j & Hj & Hf) _]; [apply (comparable_sub l); [by split_and!|by eapply Hsub]|]. exists j. split; [destruct Hj as [?|(? & ? & ?)]; auto | done].
    - pose proof (stats_worker_extremes s p) as He. specialize (Hnonempty _ _ _ _ H1 H2). destruct p as [|x p]; [done|].
      destruct He as [_ (j & Hj & Hf)]; [apply (comparable_sub l); [by split_and!|by eapply Hsub]|]. exists j. split; [destruct Hj as [?|(? & ? & ?)]; auto | done]. }
  assert (HD : forall part, part ∈ first :: sts -> D (st_min part) /\ D (st_max part)).
  { intros part Hin. destruct (Hext part Hin) as (i & p & s & e & H1 & H2 & _ & (j & _ & Hj & _) & (j' & _ & Hj' & _)).
    apply elem_of_list_lookup_2 in Hj, Hj'. specialize (Hsub i p H1). split; do 2 right; by apply Hsub. }
  assert (HDfirst : D (st_min first) /\ D (st_max first)) by (apply HD; left).
  destruct (merge_fold_sums (first :: sts) start) as (Hf1 & Hf2 & Hf3).
  rewrite (foldl_foldr t_add t_zero) in Hf1, Hf2 by done. rewrite (foldl_foldr Nat.add 0) in Hf3 by lia.
  rewrite Hs1 in Hf1. rewrite Hs2 in Hf2. rewrite Hcount in Hf3. unfold start in Hf1, Hf2, Hf3. cbn [st_sum st_rms st_count] in Hf1, Hf2, Hf3.
  rewrite Hz0 in Hf1, Hf2. cbn [Nat.add] in Hf3.
  destruct (lookup_lt_is_Some_2 l 0) as [y0 Hy0]; [destruct l; [done | simpl; lia]|].
  assert (Hy0D : D y0) by (do 2 right; by eapply elem_of_list_lookup_2).
  assert (Hcnt : let r := foldl merge_step start (first :: sts) in
    (exists i part, takes_part (first :: sts) i part /\ st_min r = st_min part /\ st_min_index r = st_min_index part) /\
    (forall i part, takes_part (first :: sts) i part -> t_lt (st_min part) (st_min r) = false)).
  { destruct (merge_fold_counted D (first :: sts) start) as (Hwho & Hacc & Hall); try done; try apply HDfirst.
    { intros st Hst. split; by apply HD. }
    cbv zeta in *. set (r := foldl merge_step start (first :: sts)) in *. split.
    - destruct Hwho as [[E1 E2]|(i & st & [Hi Hc] & E1 & E2)].
      + exists 0, first. split_and!; [split; [done | by left] | done | done].
      + exists i, st. split_and!; [split; [done|] | done | done]. destruct i as [|i]; [by left|]. right.
        destruct Hc as [Hc|(j & s & ? & ? & ?)]; [exists 0, first; split_and!; [lia | done | done] | by exists j, s].
    - intros i part [Hi Hc]. destruct Hc as [->|Hc]; [|apply (Hall i part); split; [done | by right]].
      injection Hi as <-. exact Hacc. }
  split_and!.
  - unfold totals_of. cbn [st_sum st_count st_average st_rms].
    fold start in Hf1, Hf2, Hf3 |- *. rewrite Hf1, Hf2, Hf3. split_and!; done.
  - cbn [st_max st_max_index].
    destruct (merge_fold_max D (first :: sts) start) as [(st & Hin & E1 & E2) Hle]; try done; [by destruct HDfirst | intros; by apply HD |].
    set (r := foldl merge_step start (first :: sts)) in *.
    assert (Hin' : exists st, st ∈ first :: sts /\ st_max r = st_max st /\ st_max_index r = st_max_index st).
    { apply elem_of_cons in Hin as [->|Hin]; [exists first; split_and!; [left | done | done] | exists st; done]. }
    clear st Hin E1 E2. destruct Hin' as (st & Hin & E1 & E2).
    destruct (Hext st Hin) as (i & p & s & e & H1 & H2 & _ & _ & (j & Hj & Hj1 & Hj2)).
    assert (Hmax : forall j y, l !! j = Some y -> t_lt (st_max r) y = false).
    { intros k y Hk. destruct (in_tiles l 1 pieces ranges k y Ht Hk) as (i' & s' & e' & p' & Hr' & Hp' & Hy).
      assert (Hin' : stats_worker s' p' ∈ first :: sts).
      { rewrite Hp. apply elem_of_list_lookup. exists i'. unfold parts. apply lookup_zip_with_Some. exists p', (s', e'). done. }
      apply elem_of_list_lookup in Hy as [jy Hjy].
      assert (HyD : D y) by (do 2 right; by eapply elem_of_list_lookup_2).
      apply (Hntr (st_max r) (st_max (stats_worker s' p')) y); try done.
      - rewrite E1. by apply HD. - by apply HD. - apply Hle. by right.
      - pose proof (stats_worker_extremes s' p') as He. destruct p' as [|x p']; [done|].
        destruct He as [_ (j' & _ & Hf)]; [apply (comparable_sub l); [by split_and!|by eapply Hsub]|].
        by apply (proj2 Hf jy y). }
    split; [|done]. rewrite E2. destruct Hj as [->|[-> Hm0]].
    + rewrite E1. by apply (lookup_tiles l 1 pieces ranges i s e p j).
    + rewrite Hy0. f_equal. rewrite E1, Hm0.
      destruct (Hb y0) as [_ [?|Hlt]]; [by eapply elem_of_list_lookup_2 | done |].
      specialize (Hmax 0 y0 Hy0). rewrite E1, Hm0 in Hmax. congruence.
  - intros Hfirst. specialize (Hfirst first sts eq_refl). cbn [st_min st_min_index].
    destruct (merge_fold_min D (first :: sts) start) as [(st & Hin & E1 & E2) Hle]; try done; [by destruct HDfirst | intros; by apply HD | |].
    { intros st Hst. unfold start. cbn [st_max]. apply elem_of_cons in Hst as [->|Hst]; [apply Hirr, HDfirst | by apply Hfirst]. }
    set (r := foldl merge_step start (first :: sts)) in *.
    assert (Hin' : exists st, st ∈ first :: sts /\ st_min r = st_min st /\ st_min_index r = st_min_index st).
    { apply elem_of_cons in Hin as [->|Hin]; [exists first; split_and!; [left | done | done] | exists st; done]. }
    clear st Hin E1 E2. destruct Hin' as (st & Hin & E1 & E2).
    destruct (Hext st Hin) as (i & p & s & e & H1 & H2 & _ & (j & Hj & Hj1 & Hj2) & _).
    assert (Hmin : forall j y, l !! j = Some y -> t_lt y (st_min r) = false).
    { intros k y Hk. destruct (in_tiles l 1 pieces ranges k y Ht Hk) as (i' & s' & e' & p' & Hr' & Hp' & Hy).
      assert (Hin' : stats_worker s' p' ∈ first :: sts).
      { rewrite Hp. apply elem_of_list_lookup. exists i'. unfold parts. apply lookup_zip_with_Some. exists p', (s', e'). done. }
      apply elem_of_list_lookup in Hy as [jy Hjy].
      assert (HyD : D y) by (do 2 right; by eapply elem_of_list_lookup_2).
      apply (Hntr y (st_min (stats_worker s' p')) (st_min r)); try done.
      - by apply HD. - rewrite E1. by apply HD.
      - pose proof (stats_worker_extremes s' p') as He. destruct p' as [|x p']; [done|].
        destruct He as [(j' & _ & Hf) _]; [apply (comparable_sub l); [by split_and!|by eapply Hsub]|].
        by apply (proj2 Hf jy y).
      - apply Hle. by right. }
    split; [|done]. rewrite E2. destruct Hj as [->|[-> Hm0]].
    + rewrite E1. by apply (lookup_tiles l 1 pieces ranges i s e p j).
    + rewrite Hy0. f_equal. rewrite E1, Hm0.
      destruct (Hb y0) as [[?|Hlt] _]; [by eapply elem_of_list_lookup_2 | done |].
      specialize (Hmin 0 y0 Hy0). rewrite E1, Hm0 in Hmin. congruence.
  - apply Hcnt.
  - apply Hcnt.
Qed.
