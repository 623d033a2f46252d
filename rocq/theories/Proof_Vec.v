From Verif Require Export Proof_Base.

Lemma resized_length {A} (z : A) l n : length (resized z l n) = n.
Proof. unfold resized. rewrite app_length, take_length, replicate_length. lia. Qed.

Lemma resized_grow {A} (z : A) l n : length l <= n -> resized z l n = l ++ replicate (n - length l) z.
Proof. intros H. unfold resized. by rewrite take_ge by lia. Qed.

Lemma resize_complete {A} (zero : A) (v v' : dvec A) n r :
  wf_storage (data v) -> resize zero v n = (v', r) ->
  (r = Err InputMustHaveAnEvenLength <-> is_complex v = true /\ Nat.odd n = true) /\
  (r = Err TypeCanNotResize <-> ~ (is_complex v = true /\ Nat.odd n = true) /\ ~ can_hold (data v) n) /\
  (r <> Ok tt -> v' = v) /\
  (r = Ok tt ->
     len v' = n /\ same_meta v v' /\ n <= alloc_len v' /\ alloc_len v <= alloc_len v' /\
     s_kind (data v') = s_kind (data v) /\
     elems v' = elems v ++ replicate (n - alloc_len v) zero) /\
  (r = Ok tt \/ r = Err InputMustHaveAnEvenLength \/ r = Err TypeCanNotResize).
Proof.
  intros [Hc1 Hc2] H. unfold resize, can_hold, alloc_len, s_len, same_meta in *.
  destruct (is_complex v && Nat.odd n) eqn:E1.
  { injection H as <- <-. apply andb_true_iff in E1 as [E1 E2]. rewrite E1, E2.
    split_and!; try tauto; try (split; intros; try discriminate; tauto); try congruence.
    all: intros [? ?]; exfalso; tauto. }
  assert (HE : ~ (is_complex v = true /\ Nat.odd n = true)).
  { intros [HA HB]. rewrite HA, HB in E1. discriminate. }
  destruct (length (s_elems (data v)) <? n) eqn:E2.
  - unfold try_resize, s_len in H. destruct (s_kind (data v)) eqn:Ek.
    + injection H as <- <-. unfold elems; simpl.
      rewrite !resized_length. rewrite resized_grow by lia.
      split_and!; intros; try tauto; try discriminate; try congruence; try (split; intros; try discriminate; try tauto; try congruence);
      try lia; try tauto; split_and!; try done; lia.
    + rewrite E2 in H. injection H as <- <-. unfold elems; simpl.
      assert (~ n <= length (s_elems (data v))) by lia.
      destruct v; split_and!; intros; try tauto; try discriminate; try (split; intros; try discriminate; try tauto); try done.
    + rewrite E2 in H. injection H as <- <-. unfold elems; simpl.
      assert (~ n <= length (s_elems (data v))) by lia.
      destruct v; split_and!; intros; try tauto; try discriminate; try (split; intros; try discriminate; try tauto); try done.
    + rewrite E2 in H. injection H as <- <-. unfold elems; simpl.
      assert (~ n <= length (s_elems (data v))) by lia.
      destruct v; split_and!; intros; try tauto; try discriminate; try (split; intros; try discriminate; try tauto); try done.
    + destruct (s_cap (data v) <? n) eqn:E3; injection H as <- <-; unfold elems; simpl.
      * assert (~ n <= s_cap (data v)) by lia.
        destruct v; split_and!; intros; try tauto; try discriminate; try (split; intros; try discriminate; try tauto); try done.
      * assert (n <= s_cap (data v)) by lia. rewrite !resized_length. rewrite resized_grow by lia.
        split_and!; intros; try tauto; try discriminate; try congruence; try (split; intros; try discriminate; try tauto; try congruence);
        try lia; try tauto; split_and!; try done; lia.
  - injection H as <- <-. unfold elems; simpl.
    assert (n <= length (s_elems (data v))) by lia.
    replace (n - length (s_elems (data v))) with 0 by lia. simpl. rewrite app_nil_r.
    assert (Hh : match s_kind (data v) with KVec => True | KArrayVec => n <= s_cap (data v) | _ => n <= length (s_elems (data v)) end).
    { destruct (s_kind (data v)); try done; lia. }
    split_and!; intros; try tauto; try discriminate; try (split; intros; try discriminate; try tauto); try done;
    split_and!; try done; lia.
Qed.

(** The form used by the operations: a resize that may or may not succeed. *)
Lemma resize_cases {A} (zero : A) (v : dvec A) n :
  (exists e, resize zero v n = (v, Err e)) \/
  (exists v' t, resize zero v n = (v', Ok tt) /\ len v' = n /\ same_meta v v' /\ n <= alloc_len v' /\
     s_kind (data v') = s_kind (data v) /\
     elems v' = elems v ++ replicate t zero /\ (is_complex v = true -> Nat.odd n = false) /\
     t = n - alloc_len v).
Proof.
  unfold resize, try_resize, alloc_len, s_len, same_meta.
  destruct (is_complex v && Nat.odd n) eqn:E1; [left; eauto|].
  assert (HE : is_complex v = true -> Nat.odd n = false).
  { intros H. rewrite H in E1. done. }
  destruct (length (s_elems (data v)) <? n) eqn:E2.
  - destruct (s_kind (data v)) eqn:Ek; try (left; destruct v; eauto; fail).
    + right. eexists; exists (n - length (s_elems (data v))). split; [reflexivity|]. unfold elems, len; simpl.
      rewrite resized_length, resized_grow by lia. split_and!; try done; lia.
    + destruct (s_cap (data v) <? n) eqn:E3.
      * left. destruct v; eauto.
      * right. eexists; exists (n - length (s_elems (data v))). split; [reflexivity|]. unfold elems, len; simpl.
        rewrite resized_length, resized_grow by lia. split_and!; try done; lia.
  - right. eexists; exists 0. split; [reflexivity|]. unfold elems, len; simpl. rewrite app_nil_r. split_and!; try done; lia.
Qed.

Lemma resize_kvec {A} (zero : A) (v : dvec A) n :
  s_kind (data v) = KVec -> (is_complex v = true -> Nat.odd n = false) ->
  exists v', resize zero v n = (v', Ok tt).
Proof.
  intros Hk He. unfold resize, try_resize. rewrite Hk.
  destruct (is_complex v) eqn:E; [rewrite He by done|]; simpl; destruct (alloc_len v <? n); eauto.
Qed.

Lemma even_odd_false n : Nat.odd n = false <-> Nat.even n = true.
Proof. rewrite <- Nat.negb_even. destruct (Nat.even n); simpl; intuition congruence. Qed.

Lemma resize_wf {A} (zero : A) (v : dvec A) n : wf v -> wf (fst (resize zero v n)).
Proof.
  intros H. destruct (resize_cases zero v n) as [[e ->]|(v' & t & -> & Hl & (_ & _ & Hn) & Ha & _ & _ & He & _)]; [done|].
  simpl. split; [lia|]. unfold is_complex in *. rewrite Hn, Hl. intros Hc. by apply even_odd_false, He.
Qed.

(** ** resize_b *)

Lemma resize_b_vec {A} (zero : A) b (v : dvec A) n :
  wf v -> s_kind (data v) = KVec ->
  resize_b zero b v n = let '(v', r) := resize zero v n in Done (v', b, r).
Proof.
  intros Hw Hk. unfold resize_b.
  destruct (is_complex v && Nat.odd n) eqn:E.
  { unfold resize. by rewrite E. }
  assert (He : is_complex v = true -> Nat.odd n = false).
  { intros Hc. by rewrite Hc in E. }
  destruct (resize_kvec zero v n Hk He) as [v' ->]. done.
Qed.

(** ** Constructors *)

Definition checked_ctor (c : ctor) (k : skind) : bool :=
  match c with
  | ToGen _ _ => match k with KSlice => false | _ => true end
  | FromComplexTime | FromComplexFreq => false
  | _ => true
  end.

Lemma vdata_app {A} (s : storage A) de dm ns n l :
  n <= length l -> (exists r, s_elems s = l ++ r) -> vdata (DVec s de dm ns n) = Done (take n l).
Proof.
  intros H2 [r H1]. unfold vdata, elems; simpl. rewrite H1, slice_Done by (rewrite ?app_length; lia).
  by rewrite Nat.sub_0_r, drop_0, take_app_le.
Qed.

Lemma construct_alloc_ok {A} `{Num A} (s : storage A) :
  wf_storage s -> exists s', try_resize n0 s (s_alloc_len s) = (s', Ok tt) /\ exists r, s_elems s' = s_elems s ++ r.
Proof.
  intros [H1 H2]. unfold try_resize, s_alloc_len. destruct s as [k cap l]; unfold s_len in *; simpl in *.
  destruct k; rewrite ?Nat.ltb_irrefl; simpl;
    (eexists; split; [done|]); simpl; try (exists []; by rewrite app_nil_r); eexists; by rewrite resized_grow by lia.
Qed.

Lemma construct_spec {A} `{Num A} (c : ctor) (s : storage A) :
  wf_storage s ->
  exists v, construct c s = Done v /\ delta v = n1 /\ len v <= alloc_len v /\
    vdata v = Done (take (len v) (s_elems s)) /\
    (is_complex v = false -> len v = s_len s) /\
    (checked_ctor c (s_kind s) = true -> is_complex v = true -> len v = if Nat.even (s_len s) then s_len s else 0) /\
    (checked_ctor c (s_kind s) = false -> len v = s_len s).
Proof.
  intros Hw. pose proof (construct_alloc_ok s Hw) as (s' & Ht & r & Hr).
  destruct c; simpl.
  all: repeat match goal with
       | |- context [try_resize ?a ?b ?c] => rewrite Ht
       end.
  all: eexists; split; [reflexivity|].
  all: unfold len, alloc_len, is_complex, elems, s_len; simpl.
  all: split; [done|].
  all: set (N := length (s_elems s)) in *.
  all: assert (Hx : exists r, s_elems (match s_kind s with KVec => expand_to_full_capacity n0 s | _ => s end) = s_elems s ++ r)
    by (destruct (s_kind s); simpl; try (exists []; by rewrite app_nil_r); eexists; reflexivity).
  all: try (destruct Hx as [q Hq]; change (s_len s) with N; rewrite Hq, app_length; fold N;
    assert ((if Nat.even N then N else 0) <= N) by (destruct (Nat.even N); lia);
    (split_and!; [lia| |done|done|done]);
    apply vdata_app; [fold N; lia | eauto]).
  - rewrite <- Nat.negb_even. change (s_len s) with N.
    destruct (s_kind s), (Nat.even N) eqn:Ev, c; simpl; rewrite ?Ev; split_and!; try done; try lia;
    apply vdata_app; try (fold N; lia); exists []; by rewrite app_nil_r.
  - rewrite <- Nat.negb_even. change (s_len s) with N.
    destruct (Nat.even N) eqn:Ev, (ns_is_complex _) eqn:En; simpl; split_and!; try done; try lia;
    apply vdata_app; try (fold N; lia); exists []; by rewrite app_nil_r.
  - rewrite Hr, app_length. fold N. split_and!; try done; [lia|]. apply vdata_app; [fold N; lia | eauto].
  - rewrite Hr, app_length. fold N. split_and!; try done; [lia|]. apply vdata_app; [fold N; lia | eauto].
  - rewrite Hr, app_length. fold N. split_and!; try done; [lia|]. apply vdata_app; [fold N; lia | eauto].
  - rewrite Hr, app_length. fold N. split_and!; try done; [lia|]. apply vdata_app; [fold N; lia | eauto].
Qed.

Lemma construct_wf {A} `{Num A} (c : ctor) (s : storage A) v :
  wf_storage s -> checked_ctor c (s_kind s) = true -> construct c s = Done v -> wf v.
Proof.
  intros Hw Hc Hv. destruct (construct_spec c s Hw) as (v0 & Hv0 & _ & Hl & _ & _ & He & _).
  rewrite Hv in Hv0. injection Hv0 as <-. split; [done|]. intros Hx. rewrite He by done.
  destruct (Nat.even (s_len s)) eqn:E; [done | reflexivity].
Qed.

Lemma construct_meta {A} `{Num A} (c : ctor) (s : storage A) v :
  construct c s = Done v -> (number_space v, domain v) = declared_meta c /\ delta v = n1.
Proof.
  intros Hc. destruct c; simpl in Hc; try (injection Hc as <-; done);
  destruct (try_resize n0 s (s_alloc_len s)) as [s' [u|e]]; try discriminate; injection Hc as <-; done.
Qed.

Lemma construct_complex_vec_spec {A} `{Num A} d cap (l : list (A * A)) :
  1 <= Nat.max cap (length l) ->
  exists v, construct_complex_vec d cap l = Done v /\ cplx v l /\ wf v.
Proof.
  intros Hn. unfold construct_complex_vec.
  destruct (l ++ replicate (cap - length l) (n0, n0)) as [|p q] eqn:E.
  { apply (f_equal length) in E. rewrite app_length, replicate_length in E. simpl in E. lia. }
  eexists. split; [done|]. rewrite <- E. unfold cplx, wf, len, alloc_len, is_complex, s_len; simpl.
  rewrite complex_to_array_app. split_and!; try done.
  - eapply vdata_intro; [done|]. simpl. by rewrite complex_to_array_length.
  - rewrite app_length, !complex_to_array_length. lia.
  - intros _. apply (even_double (length l)).
Qed.

(** ** Rededication *)

Lemma rededicate_spec {A} (zero : A) t (v : dvec A) :
  let r := rededicate_from zero t v in
  data r = data v /\ delta r = delta v /\
  is_complex r = match t with VRealTime | VRealFreq => false | VComplexTime | VComplexFreq => true | VGen => is_complex v end /\
  vdomain r = match t with VRealTime | VComplexTime => Time | VRealFreq | VComplexFreq => Frequency | VGen => vdomain v end /\
  len r = if negb (Bool.eqb (is_complex r) (is_complex v)) && negb (ddomain_eqb (vdomain r) (vdomain v)) then 0 else len v.
Proof.
  destruct v as [s de dm ns n]. unfold rededicate_from, rededicate_from_force, is_complex, vdomain, len; simpl.
  destruct t; simpl;
  repeat match goal with |- context [if ?b then _ else _] => destruct b eqn:?; simpl end;
  split_and!; try done;
  try (unfold resize, is_complex, alloc_len, s_len; simpl; try destruct (ns_is_complex ns); try destruct (dm_domain dm); simpl in *; try done; try congruence).
Qed.

Lemma resize_prefix {A} (zero : A) (v v' : dvec A) n l :
  wf_storage (data v) -> vdata v = Done l -> resize zero v n = (v', Ok tt) ->
  exists l', vdata v' = Done l' /\ length l' = n /\ take (min (length l) n) l' = take (min (length l) n) l.
Proof.
  intros Hw Hv Hr. destruct (resize_complete zero v v' n (Ok tt) Hw Hr) as (_ & _ & _ & HO & _).
  destruct (HO eq_refl) as (H1 & H2 & H3 & H4 & H5 & H6).
  apply vdata_inv in Hv as (Hn & Hle & Ht).
  unfold alloc_len, s_len in H3. fold (elems v') in H3.
  exists (take n (elems v')). unfold len in H1. split_and!.
  - unfold vdata. rewrite H1, slice_Done by lia. by rewrite Nat.sub_0_r, drop_0.
  - rewrite take_length. lia.
  - rewrite take_take, H6. rewrite (take_app_le _ _ (_ `min` _ `min` n)) by lia.
    rewrite <- Ht at 3. rewrite take_take. f_equal. lia.
Qed.
