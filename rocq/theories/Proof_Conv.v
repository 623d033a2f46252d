From Verif Require Export Proof_Vec.

(** ** Round trips between storages and vectors (C44) *)

Lemma real_roundtrip {A} `{Num A} (c : ctor) (cap : nat) (l : list A) v :
  c = ToRealTime \/ c = ToRealFreq \/ c = FromRealTime \/ c = FromRealFreq ->
  length l <= cap ->
  construct c (Storage KVec cap l) = Done v ->
  reals v l /\ into_vec_real v = l /\ snd (getf v) = length l /\ take (length l) (s_elems (fst (getf v))) = l.
Proof.
  intros Hc Hcap Hv.
  assert (Hw : wf_storage (Storage KVec cap l)). { unfold wf_storage, s_len; simpl. split; [lia|congruence]. }
  destruct (construct_spec c _ Hw) as (v' & Hv' & _ & Hl & Hd & Hr & _). rewrite Hv in Hv'. injection Hv' as <-.
  assert (Hreal : is_complex v = false).
  { destruct Hc as [-> |[-> |[-> | ->]]]; simpl in Hv; injection Hv as <-; done. }
  specialize (Hr Hreal). unfold s_len in Hr; simpl in Hr. unfold len in *. rewrite Hr in Hd. cbn [s_elems] in Hd.
  rewrite take_ge in Hd by lia.
  split; [by split|]. unfold into_vec_real, getf. cbn [fst snd]. rewrite Hr.
  pose proof (vdata_inv v l Hd) as (_ & _ & Ht). fold (elems v). rewrite Ht. done.
Qed.

Lemma cons_not_nil {A} (l : list A) : 1 <= length l -> exists x q, l = x :: q.
Proof. destruct l; simpl; [lia|eauto]. Qed.

Lemma interleaved_vec_spec {A} `{Num A} cap (l : list (A * A)) :
  1 <= Nat.max cap (length l) ->
  interleaved_vec_to_complex_vec (2 * cap) (complex_to_array l) = Done (l ++ replicate (cap - length l) (n0, n0)).
Proof.
  intros Hc. unfold interleaved_vec_to_complex_vec. rewrite complex_to_array_length.
  replace (2 * cap - 2 * length l) with (2 * (cap - length l)) by lia.
  rewrite <- complex_to_array_replicate, <- complex_to_array_app.
  destruct (cons_not_nil (l ++ replicate (cap - length l) (n0, n0))) as ([x y] & q & E).
  { rewrite app_length, replicate_length. lia. }
  rewrite E. cbn [complex_to_array].
  change (x :: y :: complex_to_array q) with (complex_to_array ((x, y) :: q)). by rewrite pairs_of_complex_to_array.
Qed.

Lemma complex_roundtrip {A} `{Num A} d cap (l : list (A * A)) :
  length l <= cap -> 1 <= cap ->
  exists v, construct_complex_vec d cap l = Done v /\ cplx v l /\
    into_vec_complex v = Done (l ++ replicate (cap - length l) (n0, n0)) /\
    get_complex_vec v = Done (l ++ replicate (cap - length l) (n0, n0), length l).
Proof.
  intros Hc H1. unfold construct_complex_vec.
  destruct (l ++ replicate (cap - length l) (n0, n0)) as [|p q] eqn:E.
  { apply (f_equal length) in E. rewrite app_length, replicate_length in E. simpl in E. lia. }
  rewrite <- E. eexists; split; [done|].
  set (arr := complex_to_array (l ++ replicate (cap - length l) (n0, n0))).
  assert (Hlen : length arr = 2 * cap).
  { unfold arr. rewrite complex_to_array_length, app_length, replicate_length. lia. }
  assert (Ht : take (2 * length l) arr = complex_to_array l).
  { unfold arr. by rewrite complex_to_array_take, take_app. }
  split.
  - split; [done|]. unfold vdata, elems; cbn [data valid_len s_elems]. rewrite slice_Done by lia.
    rewrite Nat.sub_0_r, drop_0; exact (f_equal Done Ht).
  - unfold into_vec_complex, get_complex_vec, elems. cbn [data valid_len s_cap s_elems].
    split.
    + rewrite Ht, Hlen. apply interleaved_vec_spec. lia.
    + replace (length arr) with (2 * length (l ++ replicate (cap - length l) (@n0 A _, @n0 A _))) at 1
        by (unfold arr; by rewrite complex_to_array_length).
      unfold arr at 1. rewrite interleaved_vec_spec.
      2:{ rewrite app_length, replicate_length. lia. }
      rewrite Nat.sub_diag. simpl replicate. rewrite app_nil_r, bind_Done.
      assert (2 * length l / 2 = length l) as -> by lia. done.
Qed.

Lemma slice_roundtrip {A} `{Num A} k d (l : list (A * A)) :
  let v := construct_complex_slice k d l in
  cplx v l /\ get_complex_slice v = Done (l, length l).
Proof.
  simpl. split.
  - split; [done|]. unfold vdata, elems; simpl. rewrite slice_Done by lia. by rewrite Nat.sub_0_r, drop_0, take_ge by lia.
  - unfold get_complex_slice, elems, construct_complex_slice; cbv zeta; cbn [data valid_len s_elems]. rewrite array_to_complex_Done, bind_Done.
    rewrite complex_to_array_length. assert (2 * length l / 2 = length l) as -> by lia. done.
Qed.

Lemma interleave_spec {A} `{Num A} d (re im : list A) :
  (length re <> length im -> interleave_to_complex d re im = Err InputMustHaveTheSameSize) /\
  (length re = length im -> exists v, interleave_to_complex d re im = Ok v /\ cplx v (zip re im) /\ wf v /\ domain v = d).
Proof.
  unfold interleave_to_complex. split; intros Hl.
  - apply Nat.eqb_neq in Hl. by rewrite Hl.
  - rewrite Hl, Nat.eqb_refl. simpl. eexists; split; [done|].
    assert (cplx (DVec (Storage KVec (length (complex_to_array (zip re im))) (complex_to_array (zip re im))) n1 d NComplex
        (length (complex_to_array (zip re im)))) (zip re im)) as Hv.
    { split; [done|]. unfold vdata, elems; simpl. rewrite slice_Done by lia. by rewrite Nat.sub_0_r, drop_0, take_ge by lia. }
    split_and!; try done. unfold wf, len, alloc_len, s_len; simpl. split; [lia|]. intros _. rewrite complex_to_array_length. apply even_double.
Qed.
