From Verif Require Import Proof_Base Spec_Inline.
From stdpp Require Import list_numbers tactics.

Section inline.
Context {T : Type} (zero : T).
Implicit Types (v : inline_vector T) (l : list T).

Definition ilimit v : limit := match v with Inline _ => Some INLINE_CAPACITY | Dynamic _ _ => None end.
Definition iok v : Prop := fits (ilimit v) (ilen v).

Lemma ipush_fits v x : fits (ilimit v) (ilen v + 1) -> exists v', ipush v x = Done v' /\ ielems v' = ielems v ++ [x] /\ ilimit v' = ilimit v.
Proof.
  destruct v as [l|c l]; unfold ilen; cbn [ilimit fits ielems ipush]; intros Hf.
  - destruct (Nat.ltb_spec (length l) INLINE_CAPACITY); [|lia]. cbn. by eexists.
  - by eexists.
Qed.
Lemma ipush_full v x : iok v -> ~ fits (ilimit v) (ilen v + 1) -> ipush v x = Panicked.
Proof.
  unfold iok. destruct v as [l|c l]; unfold ilen; cbn [ilimit fits ielems ipush]; intros Ho Hf; [|done].
  destruct (Nat.ltb_spec (length l) INLINE_CAPACITY); [lia|]. done.
Qed.

Lemma iremove_0 v x l : ielems v = x :: l -> exists v', iremove v 0 = Done (v', x) /\ ielems v' = l /\ ilimit v' = ilimit v.
Proof.
  intros E. unfold iremove. rewrite E. cbn [rd lookup list_lookup]. rewrite bind_Done. cbn [take drop app Nat.add]. eexists. split; [reflexivity|].
  by destruct v.
Qed.

Lemma iappend_fits fuel v other l : ielems other = l -> length l <= fuel -> fits (ilimit v) (ilen v + length l) ->
  exists v' o', iappend fuel v other = Done (v', o') /\ ielems v' = ielems v ++ l /\ ilimit v' = ilimit v /\ ielems o' = [].
Proof.
  revert v other l. induction fuel as [|fuel IH]; intros v other l E Hl Hf; destruct l as [|x l]; cbn [iappend]; unfold ilen at 1; rewrite E; cbn [length].
  - exists v, other. rewrite app_nil_r. done.
  - cbn in Hl. lia.
  - exists v, other. rewrite app_nil_r. done.
  - cbn [Nat.eqb]. destruct (iremove_0 other x l E) as (o & -> & Eo & _). rewrite bind_Done.
    assert (Hf1 : fits (ilimit v) (ilen v + 1)) by (destruct v; cbn in Hf |- *; [lia|done]).
    destruct (ipush_fits v x Hf1) as (v1 & -> & E1 & L1). rewrite bind_Done.
    destruct (IH v1 o l Eo ltac:(cbn in Hl; lia)) as (v2 & o2 & E2 & R2 & L2 & O2).
    { unfold ilen. rewrite L1, E1, app_length. cbn [length]. unfold ilen in Hf. destruct v; cbn in Hf |- *; [lia|done]. }
    exists v2, o2. rewrite E2. split; [done|]. rewrite R2, E1, L2, L1, <- app_assoc. done.
Qed.
Lemma iappend_full fuel v other l : ielems other = l -> length l <= fuel -> iok v -> ~ fits (ilimit v) (ilen v + length l) -> iappend fuel v other = Panicked.
Proof.
  revert v other l. induction fuel as [|fuel IH]; intros v other l E Hl Ho Hf; destruct l as [|x l]; cbn [iappend]; unfold ilen at 1; rewrite E; cbn [length].
  - unfold iok in Ho. rewrite Nat.add_0_r in Hf. done.
  - cbn in Hl. lia.
  - unfold iok in Ho. rewrite Nat.add_0_r in Hf. done.
  - cbn [Nat.eqb]. destruct (iremove_0 other x l E) as (o & -> & Eo & _). rewrite bind_Done.
    destruct v as [lv|c lv]; [|done]. unfold iok in Ho. cbn [ilimit fits] in *.
    destruct (Nat.leb_spec (ilen (Inline lv) + 1) INLINE_CAPACITY).
    + destruct (ipush_fits (Inline lv) x ltac:(done)) as (v1 & -> & E1 & L1). rewrite bind_Done. apply (IH v1 o l Eo); [cbn in Hl; lia| |].
      * unfold iok. rewrite L1. cbn [ilimit fits]. unfold ilen. rewrite E1, app_length. cbn [length]. unfold ilen in *. lia.
      * rewrite L1. cbn [ilimit fits]. unfold ilen. rewrite E1, app_length. cbn [length] in *. unfold ilen in *. lia.
    + rewrite ipush_full; [done|done|]. cbn [ilimit fits]. lia.
Qed.

Lemma icall_list v c l' a : resizes c = false -> list_call (ielems v) c l' a -> fits (ilimit v) (length l') ->
  exists v', icall_do zero v c = Done (v', a) /\ ielems v' = l' /\ ilimit v' = ilimit v.
Proof.
  intros Hr Hc Hf. inversion Hc as [l x E1 E2 E3 E4|l x E1|E1|l1 x l2 E1|l l0 E1|l1 x l2 E1|l1 x y l2 E1]; subst; cbn [icall_do].
  - rewrite app_length in Hf. destruct (ipush_fits v x) as (v' & -> & E & L); [done|]. rewrite bind_Done. by exists v'.
  - unfold ipop. rewrite <- E1, app_length. cbn [length]. rewrite Nat.add_sub, take_app, list_lookup_middle by done. cbn [fst snd].
    eexists. split; [reflexivity|]. by destruct v.
  - unfold ipop. rewrite <- E1. cbn. eexists. split; [reflexivity|]. by destruct v.
  - unfold iremove. rewrite <- E1. unfold rd. rewrite list_lookup_middle by done. rewrite bind_Done. rewrite take_app.
    eexists. split; [reflexivity|]. replace (drop (length l1 + 1) (l1 ++ x :: l2)) with l2. { by destruct v. }
    rewrite drop_app_ge by lia. by replace (length l1 + 1 - length l1) with 1 by lia.
  - rewrite app_length in Hf. destruct (iappend_fits (length l0) v (Dynamic (length l0) l0) l0) as (v' & o & -> & E & L & _); [done|done|done|].
    rewrite bind_Done. by exists v'.
  - unfold iinsert, ilen. rewrite <- E1. rewrite app_length in Hf. cbn [length] in Hf.
    destruct (Nat.leb_spec (length l1) (length (l1 ++ l2))); [|rewrite app_length in *; lia]. cbn [assert_]. rewrite bind_Done. rewrite take_app, drop_app.
    destruct v as [lv|cap lv]; cbn [ielems] in E1; subst lv; cbn [ilimit fits] in Hf.
    + destruct (Nat.ltb_spec (length (l1 ++ l2)) INLINE_CAPACITY); [|rewrite app_length in *; lia]. cbn [assert_]. rewrite !bind_Done. by eexists.
    + rewrite bind_Done. by eexists.
  - unfold iset. rewrite <- E1. rewrite wr_Done by (rewrite app_length; cbn; lia). rewrite !bind_Done. eexists. split; [reflexivity|].
    replace (<[length l1:=y]> (l1 ++ x :: l2)) with (l1 ++ y :: l2) by (by rewrite insert_app_r_alt, Nat.sub_diag by done). by destruct v.
Qed.

(** A call which no list allows, or which makes the list too long, panics. *)
Lemma icall_panics v c : resizes c = false -> iok v -> (forall l' a, list_call (ielems v) c l' a -> ~ fits (ilimit v) (length l')) -> icall_do zero v c = Panicked.
Proof.
  intros Hr Ho Hn. destruct c as [x| |i|l|i x|n|i x]; cbn [icall_do]; try done.
  - rewrite ipush_full; [done|done|]. specialize (Hn _ _ (LPush _ x)). by rewrite app_length in Hn.
  - exfalso. assert (Hcase : ielems v = [] \/ exists l y, ielems v = l ++ [y]).
    { generalize (ielems v). intros l. destruct l as [|y l _] using rev_ind; [by left|right; by exists l, y]. }
    unfold iok, ilen in Ho. destruct Hcase as [E|(l & y & E)]; rewrite E in Ho, Hn.
    + apply (Hn _ _ LPopEmpty). by destruct v; cbn; lia || done.
    + apply (Hn _ _ (LPop l y)). rewrite app_length in Ho. destruct v; cbn in *; [lia|done].
  - unfold iremove. destruct (ielems v !! i) as [y|] eqn:E; [|by unfold rd; rewrite E].
    exfalso. apply elem_of_list_split_length in E as (l1 & l2 & E & ->). unfold iok, ilen in Ho. rewrite E in Ho, Hn. apply (Hn _ _ (LRemove _ _ _)).
    rewrite !app_length in Ho |- *. cbn [length] in Ho. destruct v; cbn in *; [lia|done].
  - rewrite (iappend_full _ _ _ l); [done|done|done|done|]. specialize (Hn _ _ (LAppend _ l)). by rewrite app_length in Hn.
  - unfold iinsert. destruct (Nat.leb_spec i (ilen v)); [|done]. cbn [assert_]. rewrite bind_Done. unfold ilen in *.
    assert (E : ielems v = take i (ielems v) ++ drop i (ielems v)) by (by rewrite take_drop).
    assert (Hi : i = length (take i (ielems v))) by (rewrite take_length; lia).
    specialize (Hn (take i (ielems v) ++ x :: drop i (ielems v)) Nothing).
    assert (Hc : list_call (ielems v) (Insert_at i x) (take i (ielems v) ++ x :: drop i (ielems v)) Nothing).
    { pose proof (LInsert (take i (ielems v)) x (drop i (ielems v))) as Hc. rewrite <- Hi, take_drop in Hc. exact Hc. }
    specialize (Hn Hc). rewrite app_length in Hn. cbn [length] in Hn. rewrite take_length, drop_length in Hn.
    unfold iok, ilen in Ho. destruct v as [lv|cap lv]; cbn [ilimit fits ielems] in *; [|by destruct Hn].
    destruct (Nat.ltb_spec (length lv) INLINE_CAPACITY); [lia|]. done.
  - unfold iset, wr. destruct (Nat.ltb_spec i (length (ielems v))) as [Hi|]; [|done].
    exfalso. apply lookup_lt_is_Some_2 in Hi as [y E]. apply elem_of_list_split_length in E as (l1 & l2 & E & ->).
    unfold iok, ilen in Ho. rewrite E in Ho, Hn. apply (Hn _ _ (LSet _ _ x _)). rewrite !app_length in *. cbn [length] in *.
    destruct v; cbn in *; [lia|done].
Qed.

Lemma iok_new b n : iok (with_capacity (T := T) b n) /\ ilimit (with_capacity (T := T) b n) = limit_of b n /\ ielems (with_capacity (T := T) b n) = [].
Proof.
  unfold with_capacity, limit_of, iok. change INLINE_CAPACITY with 64. destruct b; [destruct (n <=? 64)|]; cbn; (split_and!; (lia || done)).
Qed.

Lemma icalls_list m v cs l' ans : ilimit v = m -> Forall (fun c => resizes c = false) cs -> list_calls m (ielems v) cs l' ans ->
  exists v', icalls zero v cs = Done (v', ans) /\ ielems v' = l'.
Proof.
  revert v l' ans. induction cs as [|c cs IH]; intros v l' ans Hm Hr Hc; inversion Hc as [|l c' l1 a cs' l2 rest Hc1 Hf Hc2]; subst; cbn [icalls].
  - by exists v.
  - inversion Hr as [|? ? Hr1 Hr2]; subst. destruct (icall_list v c l1 a Hr1 Hc1 Hf) as (v1 & -> & E1 & L1). rewrite bind_Done.
    subst l1. destruct (IH v1 l' rest L1 Hr2 Hc2) as (v2 & -> & E2). rewrite bind_Done. by exists v2.
Qed.

Lemma icalls_panics m v cs : ilimit v = m -> iok v -> Forall (fun c => resizes c = false) cs ->
  (forall l' ans, ~ list_calls m (ielems v) cs l' ans) -> icalls zero v cs = Panicked.
Proof.
  revert v. induction cs as [|c cs IH]; intros v Hm Ho Hr Hn; cbn [icalls].
  - exfalso. apply (Hn (ielems v) []). constructor.
  - inversion Hr as [|? ? Hr1 Hr2]; subst.
    destruct (icall_do zero v c) as [[v1 a]|] eqn:E; [|done]. rewrite bind_Done.
    assert (Hex : exists l1 a1, list_call (ielems v) c l1 a1 /\ fits (ilimit v) (length l1)).
    { assert (D : icall_do zero v c <> Panicked) by (by rewrite E).
      destruct c as [x| |i|l|i x|n|i x]; try done; cbn [icall_do] in D.
      - destruct v as [lv|cap lv]; cbn [ielems].
        + cbn [ipush] in D. destruct (Nat.ltb_spec (length lv) INLINE_CAPACITY); [|done]. do 2 eexists. split; [apply LPush|]. cbn. rewrite app_length. cbn. lia.
        + do 2 eexists. split; [apply LPush|done].
      - assert (Hcase : ielems v = [] \/ exists l y, ielems v = l ++ [y]).
        { generalize (ielems v). intros l. destruct l as [|y l _] using rev_ind; [by left|right; by exists l, y]. }
        unfold iok, ilen in Ho. destruct Hcase as [E'|(l & y & E')]; rewrite E' in Ho |- *; do 2 eexists; (split; [apply LPopEmpty || apply LPop|]).
        + done.
        + rewrite app_length in Ho. destruct v; cbn in *; [lia|done].
      - unfold iremove in D. destruct (ielems v !! i) as [y|] eqn:E'; [|by unfold rd in D; rewrite E' in D].
        apply elem_of_list_split_length in E' as (l1 & l2 & E' & ->). unfold iok, ilen in Ho. rewrite E' in Ho |- *. do 2 eexists. split; [apply LRemove|].
        rewrite !app_length in Ho |- *. cbn [length] in Ho. destruct v; cbn in *; [lia|done].
      - destruct v as [lv|cap lv]; [|do 2 eexists; split; [apply LAppend|done]].
        destruct (Nat.leb_spec (length lv + length l) INLINE_CAPACITY).
        + do 2 eexists. split; [apply LAppend|]. cbn. rewrite app_length. lia.
        + exfalso. apply D. rewrite (iappend_full _ _ _ l); [done|done|done|done|]. unfold ilen. cbn. lia.
      - unfold iinsert, ilen in D. destruct (Nat.leb_spec i (length (ielems v))) as [Hi|]; [|done]. cbn [assert_] in D. rewrite bind_Done in D.
        pose proof (LInsert (take i (ielems v)) x (drop i (ielems v))) as Hc. rewrite take_length_le, take_drop in Hc by done.
        do 2 eexists. split; [exact Hc|]. rewrite app_length. cbn [length]. rewrite take_length_le, drop_length by done.
        destruct v as [lv|cap lv]; [|done]. cbn [ielems ilimit fits] in *. destruct (Nat.ltb_spec (length lv) INLINE_CAPACITY); [lia|]. by destruct D.
      - unfold iset, wr in D. destruct (Nat.ltb_spec i (length (ielems v))) as [Hi|]; [|done].
        apply lookup_lt_is_Some_2 in Hi as [y E']. apply elem_of_list_split_length in E' as (l1 & l2 & E' & ->). unfold iok, ilen in Ho. rewrite E' in Ho |- *.
        do 2 eexists. split; [apply LSet|]. rewrite !app_length in Ho |- *. cbn [length] in *. destruct v; cbn in *; [lia|done]. }
    destruct Hex as (l1 & a1 & Hc & Hf). destruct (icall_list v c l1 a1 Hr1 Hc Hf) as (v1' & E' & El & L1). rewrite E in E'. injection E' as <- <-.
    rewrite (IH v1 L1); [done| |done|].
    + unfold iok, ilen. by rewrite L1, El.
    + intros l' ans Hl. apply (Hn l' (a :: ans)). rewrite El in Hl. econstructor; eassumption.
Qed.

Lemma pushes (xs : list T) v : iok v ->
  (fits (ilimit v) (ilen v + length xs) -> exists v', foldl (fun m x => v ← m; ipush v x) (Done v) xs = Done v' /\ ielems v' = ielems v ++ xs /\ ilimit v' = ilimit v) /\
  (~ fits (ilimit v) (ilen v + length xs) -> foldl (fun m x => v ← m; ipush v x) (Done v) xs = Panicked).
Proof.
  revert v. induction xs as [|x xs IH]; intros v Ho; cbn [length foldl].
  - rewrite Nat.add_0_r, app_nil_r. split; [by exists v|]. intros Hf. exfalso. exact (Hf Ho).
  - rewrite bind_Done. assert (P : foldl (fun m x => v ← m; ipush v x) Panicked xs = Panicked) by (clear; induction xs; [done|]; cbn [foldl]; exact IHxs).
    assert (D : fits (ilimit v) (ilen v + 1) \/ ~ fits (ilimit v) (ilen v + 1)) by (destruct v; cbn; [lia|by left]).
    destruct D as [D|D].
    + destruct (ipush_fits v x D) as (v1 & -> & E1 & L1).
      assert (O1 : iok v1) by (unfold iok, ilen; rewrite L1, E1, app_length; done). destruct (IH v1 O1) as [I1 I2]. unfold ilen in I1, I2.
      rewrite L1, E1, app_length in I1, I2. cbn [length] in I1, I2. replace (length (ielems v) + 1 + length xs) with (ilen v + S (length xs)) in I1, I2 by (unfold ilen; lia).
      split; [|exact I2]. intros Hf. destruct (I1 Hf) as (v' & E & El & L). exists v'. rewrite El, <- app_assoc. done.
    + rewrite ipush_full by done. split; [|done]. intros Hf. exfalso. apply D. destruct v; cbn in *; [lia|done].
Qed.

Lemma pushes_loop (x : T) n v : loop n 0 (fun _ v => ipush v x) v = foldl (fun m x => v ← m; ipush v x) (Done v) (replicate n x).
Proof.
  generalize 0. revert v. induction n as [|n IH]; intros v i; [done|]. cbn [loop replicate foldl]. rewrite bind_Done.
  destruct (ipush v x) as [v1|]; [rewrite bind_Done; apply IH|]. cbn. clear. induction n; [done|]. cbn [replicate foldl]. exact IHn.
Qed.
End inline.

(** ** Capacities, for all calls including [try_resize] *)
Section capacity.
Context {T : Type} (zero : T).
(** Room for the elements and for the [n] elements which were asked for at first *)
Definition roomy (n : nat) (v : inline_vector T) : Prop := ilen v <= icapacity v /\ n <= icapacity v.

Lemma ipush_roomy n v x v' : roomy n v -> ipush v x = Done v' -> roomy n v'.
Proof.
  intros [H1 H2]. unfold ipush, roomy, ilen in *. destruct v as [l|c l]; cbn [ielems icapacity] in *.
  - destruct (Nat.ltb_spec (length l) INLINE_CAPACITY); cbn [assert_]; [|done]. rewrite bind_Done. intros [= <-]. cbn [ielems icapacity]. rewrite app_length. cbn [length]. lia.
  - intros [= <-]. cbn [ielems icapacity]. rewrite app_length. unfold grow. cbn [length]. lia.
Qed.
Lemma iremove_roomy n v i v' x : roomy n v -> iremove v i = Done (v', x) -> roomy n v'.
Proof.
  intros [H1 H2]. unfold iremove, roomy, ilen in *. destruct (rd (ielems v) i) as [y|] eqn:E; [|done]. rewrite bind_Done. intros [= <- <-].
  assert (length (take i (ielems v) ++ drop (i + 1) (ielems v)) <= length (ielems v)) by (rewrite app_length, take_length, drop_length; lia).
  destruct v; cbn [ielems icapacity] in *; lia.
Qed.
Lemma iappend_roomy n fuel v other v' other' : roomy n v -> iappend fuel v other = Done (v', other') -> roomy n v'.
Proof.
  revert v other. induction fuel as [|fuel IH]; intros v other Hv; cbn [iappend]; destruct (ilen other =? 0).
  - by intros [= <- <-].
  - by intros [= <- <-].
  - by intros [= <- <-].
  - destruct (iremove other 0) as [[o x]|]; [|done]. rewrite bind_Done. destruct (ipush v x) as [v1|] eqn:E; [|done]. rewrite bind_Done.
    apply IH. exact (ipush_roomy n v x v1 Hv E).
Qed.
Lemma icall_roomy n v c v' a : roomy n v -> icall_do zero v c = Done (v', a) -> roomy n v'.
Proof.
  intros Hv. pose proof Hv as [H1 H2]. destruct c as [x| |i|l|i x|m|i x]; cbn [icall_do].
  - destruct (ipush v x) as [v1|] eqn:E; [|done]. rewrite bind_Done. intros [= <- <-]. exact (ipush_roomy n v x v1 Hv E).
  - unfold ipop. intros [= <- <-]. unfold roomy, ilen in *. destruct v; cbn [ielems icapacity fst] in *; rewrite take_length; lia.
  - destruct (iremove v i) as [[v1 x]|] eqn:E; [|done]. rewrite bind_Done. intros [= <- <-]. exact (iremove_roomy n v i v1 x Hv E).
  - destruct (iappend (length l) v (Dynamic (length l) l)) as [[v1 o]|] eqn:E; [|done]. rewrite bind_Done. intros [= <- <-]. exact (iappend_roomy n _ v _ v1 o Hv E).
  - unfold iinsert. destruct (i <=? ilen v); cbn [assert_]; [|done]. rewrite bind_Done. unfold roomy, ilen in *. destruct v as [l|c l]; cbn [ielems icapacity] in *.
    + destruct (Nat.ltb_spec (length l) INLINE_CAPACITY); cbn [assert_]; [|done]. rewrite !bind_Done. intros [= <- <-]. cbn [ielems icapacity].
      rewrite app_length, take_length. cbn [app length]. rewrite drop_length. lia.
    + rewrite bind_Done. intros [= <- <-]. cbn [ielems icapacity]. rewrite app_length, take_length. cbn [app length]. rewrite drop_length. unfold grow. lia.
  - unfold itry_resize. unfold roomy, ilen in *. destruct v as [l|c l]; cbn [ielems icapacity] in *.
    + by intros [= <- <-].
    + destruct (Nat.leb_spec m c); intros [= <- <-]; cbn [ielems icapacity]; [|done]. rewrite app_length, take_length, replicate_length. lia.
  - unfold iset. destruct (wr (ielems v) i x) as [l|] eqn:E; [|done]. rewrite !bind_Done. intros [= <- <-]. unfold wr in E. destruct (i <? length (ielems v)); [|done].
    injection E as <-. unfold roomy, ilen in *. destruct v; cbn [ielems icapacity] in *; rewrite insert_length; lia.
Qed.
Lemma icalls_roomy n v cs v' ans : roomy n v -> icalls zero v cs = Done (v', ans) -> roomy n v'.
Proof.
  revert v ans. induction cs as [|c cs IH]; intros v ans Hv; cbn [icalls]; [by intros [= <- <-]|].
  destruct (icall_do zero v c) as [[v1 a]|] eqn:E; [|done]. rewrite bind_Done. destruct (icalls zero v1 cs) as [[v2 r]|] eqn:E2; [|done]. rewrite bind_Done.
  intros [= <- <-]. exact (IH v1 r (icall_roomy n v c v1 a Hv E) E2).
Qed.
End capacity.
