(** Proofs about the life of the vectors behind the pointers (C70) *)
From stdpp Require Import gmap tactics.
From Verif Require Import Proof_Base Spec_Foreign.
Local Open Scope nat_scope.

Section client.
Context {A : Type} `{Num A} `{Flt A} `{Rem A} `{Trig A} `{Math A} `{F : Fft A} `{RA : Rounding A} `{IsNan A}.
Context (e : env) (fits : nat -> bool).
Implicit Types (m : gmap nat (ivec A)) (q : request A).

Lemma uses_spec q : uses q = (handed_over q, looked_at q, changed_by q).
Proof. by destruct q. Qed.

Lemma fetch_live m hs : (forall h, h ∈ hs -> m !! h <> None) <-> exists l, fetch m hs = Some l.
Proof.
  induction hs as [|h hs IH]; cbn [fetch].
  - split; [intros _; by exists []|]. intros _ h Hh. by apply elem_of_nil in Hh.
  - split.
    + intros Hx. destruct (m !! h) as [x|] eqn:Eh; [|exfalso; apply (Hx h); [left|exact Eh]].
      destruct (proj1 IH) as [l El]; [intros k Hk; apply Hx; by right|]. rewrite El. by eexists.
    + intros [l El] k Hk. destruct (m !! h) as [x|] eqn:Eh; [|discriminate]. destruct (fetch m hs) as [l'|] eqn:El'; [|discriminate].
      apply elem_of_cons in Hk as [-> |Hk]; [by rewrite Eh|]. apply (proj2 IH); [by exists l'|exact Hk].
Qed.
Lemma fetch_length m hs l : fetch m hs = Some l -> length l = length hs.
Proof.
  revert l. induction hs as [|h hs IH]; cbn [fetch]; intros l; [by intros [= <-]|].
  destruct (m !! h); [|discriminate]. destruct (fetch m hs); [|discriminate]. intros [= <-]. cbn. f_equal. by apply IH.
Qed.
Lemma fetch_one m h l : fetch m [h] = Some l -> exists x, m !! h = Some x /\ l = [x].
Proof. cbn. destruct (m !! h) as [x|]; [|discriminate]. intros [= <-]. by exists x. Qed.

Lemma no_alias_spec q : no_alias q = true <-> NoDup (handed_over q ++ changed_by q) /\ forall h, h ∈ looked_at q -> h ∉ handed_over q /\ h ∉ changed_by q.
Proof.
  unfold no_alias. rewrite uses_spec, andb_true_iff, bool_decide_eq_true. split; intros [G1 G2]; (split; [exact G1|]).
  - rewrite forallb_forall in G2. intros h Hh. apply elem_of_list_In in Hh. pose proof (G2 h Hh) as Hx. apply negb_true_iff in Hx.
    apply not_elem_of_app. intros Hi. apply elem_of_list_In in Hi. apply not_true_iff_false in Hx. apply Hx. apply existsb_exists. exists h. split; [exact Hi|apply Nat.eqb_refl].
  - apply forallb_forall. intros h Hh. apply elem_of_list_In in Hh. apply negb_true_iff, not_true_iff_false. intros Hx. apply existsb_exists in Hx as (k & Hk & Ek).
    apply Nat.eqb_eq in Ek. subst k. apply elem_of_list_In in Hk. apply elem_of_app in Hk. destruct (G2 h Hh). tauto.
Qed.

Lemma store_lookup m hs l k : k ∉ hs -> store m hs l !! k = m !! k.
Proof.
  revert m l. induction hs as [|h hs IH]; intros m l Hk; cbn [store]; [done|]. destruct l as [|x l]; [done|].
  apply not_elem_of_cons in Hk as [G1 G2]. rewrite (IH _ _ G2). apply lookup_insert_ne. congruence.
Qed.
Lemma store_dom m hs l : (forall h, h ∈ hs -> m !! h <> None) -> dom (store m hs l) = dom m.
Proof.
  revert m l. induction hs as [|h hs IH]; intros m l Hl; cbn [store]; [done|]. destruct l as [|x l]; [done|].
  assert (D : dom (<[h := x]> m) = dom m).
  { rewrite dom_insert_L. apply subseteq_union_1_L. apply singleton_subseteq_l. apply elem_of_dom. apply not_eq_None_Some. apply Hl. left. }
  rewrite IH; [exact D|]. intros k Hk. apply not_eq_None_Some. apply elem_of_dom. rewrite D. apply elem_of_dom. apply not_eq_None_Some. apply Hl. by right.
Qed.
Lemma deletes_lookup m hs k : k ∉ hs -> (foldr delete m hs) !! k = m !! k.
Proof.
  induction hs as [|h hs IH]; intros Hk; cbn [foldr]; [done|]. apply not_elem_of_cons in Hk as [G1 G2].
  rewrite lookup_delete_ne; [by apply IH|congruence].
Qed.
Lemma deletes_gone m hs k : k ∈ hs -> (foldr delete m hs) !! k = None.
Proof.
  induction hs as [|h hs IH]; intros Hk; cbn [foldr]; [by apply elem_of_nil in Hk|].
  destruct (decide (h = k)) as [-> |Hn]; [apply lookup_delete|]. rewrite lookup_delete_ne; [|congruence]. apply IH. apply elem_of_cons in Hk as [?|?]; [congruence|done].
Qed.
Lemma deletes_dom m hs : dom (foldr delete m hs) = dom m ∖ list_to_set hs.
Proof.
  induction hs as [|h hs IH]; cbn [foldr list_to_set]; [by rewrite difference_empty_L|].
  rewrite dom_delete_L, IH. apply set_eq. intros k. rewrite !elem_of_difference, elem_of_union, elem_of_singleton. tauto.
Qed.

Lemma size_live m h x : m !! h = Some x -> size m <> 0.
Proof. intros Hx Hz. apply map_size_empty_inv in Hz. subst m. by rewrite lookup_empty in Hx. Qed.

(** What a served request is *)
Lemma serve_inv fresh m q m' r : serve e fits fresh m q = Served m' r ->
  exists t rd_ w w' y, NoDup (handed_over q ++ changed_by q) /\ (forall h, h ∈ looked_at q -> h ∉ handed_over q /\ h ∉ changed_by q) /\
    fetch m (handed_over q) = Some t /\ fetch m (looked_at q) = Some rd_ /\ fetch m (changed_by q) = Some w /\
    answer e fits q t rd_ w = Done (w', y) /\
    let base := foldr delete (store m (changed_by q) w') (handed_over q) in
    let at_ := match q with R_overwrite h _ => h | _ => fresh end in
    (forall z, y = Some z -> m' = <[at_ := z]> base /\ r = Some at_) /\ (y = None -> m' = base /\ r = None).
Proof.
  unfold serve. rewrite uses_spec. destruct (no_alias q) eqn:Ea; [|discriminate]. cbn [negb].
  destruct (fetch m (handed_over q)) as [t|]; [|discriminate]. destruct (fetch m (looked_at q)) as [s|]; [|discriminate].
  destruct (fetch m (changed_by q)) as [w|]; [|discriminate]. destruct (answer e fits q t s w) as [[w' y]|] eqn:Ew; [|discriminate].
  intros Hs. destruct (proj1 (no_alias_spec q) Ea) as [N1 N2]. exists t, s, w, w', y. split_and!; try done.
  - intros z ->. by injection Hs as <- <-.
  - intros ->. by injection Hs as <- <-.
Qed.

Lemma returns_spec q t s w w' y : answer e fits q t s w = Done (w', y) -> length t = length (handed_over q) -> (y <> None <-> returns_vector q).
Proof.
  intros Ha Ht. destruct q; cbn in Ht; cbn [returns_vector];
    destruct t as [|x [|? ?]]; try discriminate Ht; cbn [answer] in Ha.
  - destruct (new_vector _ _ _ _ _); [|discriminate]. injection Ha as <- <-. done.
  - injection Ha as <- <-. split; [congruence|done].
  - destruct (foreign_call _ _ _ _) as [[? ?]|]; [|discriminate]. injection Ha as <- <-. done.
  - destruct (overwrite_data _ _) as [[? ?]|]; [|discriminate]. injection Ha as <- <-. done.
  - injection Ha as <- <-. done.
  - destruct w as [|d [|? ?]]; try (injection Ha as <- <-; split; [congruence|done]). destruct (foreign_getter _ _ _ _) as [[? ?]|]; [|discriminate]. injection Ha as <- <-. split; [congruence|done].
  - destruct w as [|d1 [|d2 [|? ?]]]; try (injection Ha as <- <-; split; [congruence|done]). destruct (foreign_getter2 _ _ _ _) as [[[? ?] ?]|]; [|discriminate]. injection Ha as <- <-. split; [congruence|done].
  - destruct s as [|x [|? ?]]; try (injection Ha as <- <-; split; [congruence|done]). destruct (foreign_split_into _ _) as [[? ?]|]; [|discriminate]. injection Ha as <- <-. split; [congruence|done].
  - destruct w as [|d [|? ?]]; try (injection Ha as <- <-; split; [congruence|done]). destruct (set_value _ _ _); [|discriminate]. injection Ha as <- <-. split; [congruence|done].
  - destruct w as [|d [|? ?]]; injection Ha as <- <-; (split; [congruence|done]).
  - injection Ha as <- <-. split; [congruence|done].
Qed.

(** One proper request on the vectors which the client holds *)
Theorem serve_defined fresh m held q : dom m = held -> proper held q -> serve e fits fresh m q <> Undefined.
Proof.
  intros Hd (Hh & HN & HL). unfold serve. rewrite uses_spec, (proj2 (no_alias_spec q) (conj HN HL)). cbn [negb].
  assert (L : forall hs, (forall h, h ∈ hs -> h ∈ handed_over q \/ h ∈ changed_by q \/ h ∈ looked_at q) -> exists l, fetch m hs = Some l).
  { intros hs Hx. apply fetch_live. intros h Hi. apply not_eq_None_Some, elem_of_dom. rewrite Hd. apply Hh. by apply Hx. }
  destruct (L (handed_over q)) as [t ->]; [tauto|]. destruct (L (looked_at q)) as [s ->]; [tauto|]. destruct (L (changed_by q)) as [w ->]; [tauto|].
  destruct (answer e fits q t s w) as [[w' [y|]]|]; discriminate.
Qed.
Theorem serve_held fresh m held q m' r : dom m = held -> proper held q -> serve e fits fresh m q = Served m' r ->
  dom m' = held_after held q r /\ (r <> None <-> returns_vector q).
Proof.
  intros Hd Hp Hs. destruct (serve_inv _ _ _ _ _ Hs) as (t & s & w & w' & y & HN & HL & Ft & Fs & Fw & Ha & Hy & Hn).
  assert (Hlive : forall h, h ∈ changed_by q -> m !! h <> None). { apply (proj2 (fetch_live m (changed_by q))). by exists w. }
  pose proof (store_dom m (changed_by q) w' Hlive) as Sd. pose proof (returns_spec _ _ _ _ _ _ Ha (fetch_length _ _ _ Ft)) as Hr.
  unfold held_after. destruct y as [z|].
  - destruct (Hy z eq_refl) as [-> ->]. split; [|split; [intros _; apply Hr; discriminate|discriminate]].
    rewrite dom_insert_L, deletes_dom, Sd, Hd. apply union_comm_L.
  - destruct (Hn eq_refl) as [-> ->]. split; [|split; [congruence|intros Hx; apply Hr in Hx; congruence]].
    rewrite deletes_dom, Sd, Hd. by rewrite union_empty_r_L.
Qed.
Theorem life_held m held m' held' : life e fits m held m' held' -> dom m = held -> dom m' = held'.
Proof.
  induction 1 as [|m held q fresh m1 r m2 held2 Hp Hu Hs Hl IH]; [done|]. intros Hd. apply IH. exact (proj1 (serve_held _ _ _ _ _ _ Hd Hp Hs)).
Qed.
(** All other vectors are left alone. *)
Theorem serve_frame fresh m q m' r k : serve e fits fresh m q = Served m' r -> k ∉ handed_over q -> k ∉ changed_by q -> r <> Some k -> m' !! k = m !! k.
Proof.
  intros Hs G1 G2 Hr. destruct (serve_inv _ _ _ _ _ Hs) as (t & s & w & w' & y & HN & HL & Ft & Fs & Fw & Ha & Hy & Hn).
  assert (B : foldr delete (store m (changed_by q) w') (handed_over q) !! k = m !! k). { rewrite deletes_lookup by done. by apply store_lookup. }
  destruct y as [z|].
  - destruct (Hy z eq_refl) as [-> ->]. rewrite lookup_insert_ne; [exact B|]. congruence.
  - destruct (Hn eq_refl) as [-> ->]. exact B.
Qed.
(** A new address is not one of the other vectors. *)
Theorem serve_fresh fresh m q m' r : unused m q fresh -> serve e fits fresh m q = Served m' r -> forall h, r = Some h -> h ∈ handed_over q \/ m !! h = None.
Proof.
  intros Hu Hs h Hh. destruct (serve_inv _ _ _ _ _ Hs) as (t & s & w & w' & y & HN & HL & Ft & Fs & Fw & Ha & Hy & Hn).
  destruct y as [z|]; [|destruct (Hn eq_refl) as [_ ->]; discriminate]. destruct (Hy z eq_refl) as [_ ->]. injection Hh as <-.
  destruct q; try (destruct Hu; [by right|by left]). cbn. left. left.
Qed.
(** A vector which was handed over is gone. *)
Theorem serve_gone fresh m q m' r h : serve e fits fresh m q = Served m' r -> h ∈ handed_over q -> r <> Some h -> m' !! h = None.
Proof.
  intros Hs Hh Hr. destruct (serve_inv _ _ _ _ _ Hs) as (t & s & w & w' & y & HN & HL & Ft & Fs & Fw & Ha & Hy & Hn).
  destruct y as [z|].
  - destruct (Hy z eq_refl) as [-> ->]. rewrite lookup_insert_ne; [by apply deletes_gone|congruence].
  - destruct (Hn eq_refl) as [-> ->]. by apply deletes_gone.
Qed.
(** Using what isn't there *)
Theorem serve_dangling fresh m q h : m !! h = None -> h ∈ handed_over q \/ h ∈ changed_by q \/ h ∈ looked_at q -> serve e fits fresh m q = Undefined.
Proof.
  intros Hh Hu. unfold serve. rewrite uses_spec. destruct (no_alias q); [|done]. cbn [negb].
  assert (N : forall hs l, fetch m hs = Some l -> h ∉ hs).
  { intros hs l El Hi. apply (proj2 (fetch_live m hs)) in Hi; [done|by exists l]. }
  destruct (fetch m (handed_over q)) eqn:E1; [|done]. destruct (fetch m (looked_at q)) eqn:E2; [|done]. destruct (fetch m (changed_by q)) eqn:E3; [|done].
  exfalso. destruct Hu as [Hu|[Hu|Hu]]; [exact (N _ _ E1 Hu)|exact (N _ _ E3 Hu)|exact (N _ _ E2 Hu)].
Qed.
(** The results are those of the functions. *)
Theorem serve_call fresh m h refs c m' r : serve e fits fresh m (R_call h refs c) = Served m' r <->
  exists x l y code, (forall k, k ∈ refs -> k <> h) /\ m !! h = Some x /\ fetch m refs = Some l /\
    foreign_call e fits (c l) x = Done (y, code) /\ m' = <[fresh := y]> (delete h m) /\ r = Some fresh.
Proof.
  split.
  - intros Hs. destruct (serve_inv _ _ _ _ _ Hs) as (t & s & w & w' & y & HN & HL & Ft & Fs & Fw & Ha & Hy & Hn). cbn [handed_over looked_at changed_by] in *.
    destruct (fetch_one _ _ _ Ft) as (x & Hx & ->). cbn [answer] in Ha. destruct (foreign_call e fits (c s) x) as [[z code]|] eqn:Ec; [|discriminate]. injection Ha as <- <-.
    destruct (Hy z eq_refl) as [-> ->]. exists x, s, z, code. split_and!; try done. intros k Hk ->. destruct (HL h Hk) as [Hx' _]. apply Hx'. left.
  - intros (x & l & y & code & Hr & Hx & Fl & Hc & -> & ->). unfold serve. rewrite uses_spec.
    assert (NA : no_alias (R_call h refs c) = true).
    { apply no_alias_spec. cbn. split; [apply NoDup_singleton|]. intros k Hk. split; [|apply not_elem_of_nil]. apply not_elem_of_cons. split; [by apply Hr|apply not_elem_of_nil]. }
    rewrite NA. cbn [negb handed_over looked_at changed_by fetch]. rewrite Hx, Fl. cbn [answer]. rewrite Hc, bind_Done. done.
Qed.
Theorem serve_clone fresh m h m' r : unused m (R_clone h) fresh -> serve e fits fresh m (R_clone h) = Served m' r ->
  exists x, m !! h = Some x /\ r = Some fresh /\ m' !! fresh = Some (clone_vector x) /\ size m' = size m /\ (fresh <> h -> m' !! h = None).
Proof.
  intros Hu Hs. pose proof Hs as Hs'. destruct (serve_inv _ _ _ _ _ Hs) as (t & s & w & w' & y & HN & HL & Ft & Fs & Fw & Ha & Hy & Hn). cbn [handed_over looked_at changed_by] in *.
  destruct (fetch_one _ _ _ Ft) as (x & Hx & ->). cbn [answer] in Ha. injection Ha as <- <-. destruct (Hy _ eq_refl) as [-> ->]. cbn [foldr store].
  exists x. split_and!; [done|done|apply lookup_insert| |].
  - rewrite map_size_insert_None; [|].
    + rewrite map_size_delete_Some; [|by eexists]. pose proof (size_live m h x Hx). lia.
    + destruct (decide (fresh = h)) as [-> |Hn']; [apply lookup_delete|]. rewrite lookup_delete_ne by congruence. destruct Hu as [Hu|Hu]; [done|]. cbn in Hu. apply elem_of_list_singleton in Hu. congruence.
  - intros Hf. rewrite lookup_insert_ne by done. apply lookup_delete.
Qed.
Theorem serve_getter fresh m op h d m' r : serve e fits fresh m (R_getter op h d) = Served m' r ->
  exists x dst w code, m !! h = Some x /\ m !! d = Some dst /\ foreign_getter e op x dst = Done (w, code) /\ r = None /\ m' !! d = Some w /\ m' !! h = None /\ S (size m') = size m.
Proof.
  intros Hs. destruct (serve_inv _ _ _ _ _ Hs) as (t & s & w & w' & y & HN & HL & Ft & Fs & Fw & Ha & Hy & Hn). cbn [handed_over looked_at changed_by] in *.
  destruct (fetch_one _ _ _ Ft) as (x & Hx & ->). destruct (fetch_one _ _ _ Fw) as (dst & Hd & ->). cbn [answer] in Ha.
  destruct (foreign_getter e op x dst) as [[v code]|] eqn:Eg; [|discriminate]. injection Ha as <- <-. destruct (Hn eq_refl) as [-> ->]. cbn [foldr store].
  assert (Hne : h <> d). { cbn in HN. apply list.NoDup_cons in HN as [Hx' _]. intros ->. apply Hx'. left. }
  exists x, dst, v, code. split_and!; try done.
  - rewrite lookup_delete_ne by done. apply lookup_insert.
  - apply lookup_delete.
  - rewrite map_size_delete_Some; [|rewrite lookup_insert_ne by congruence; by eexists]. rewrite map_size_insert_Some by (by eexists).
    pose proof (size_live m h x Hx). lia.
Qed.
End client.
