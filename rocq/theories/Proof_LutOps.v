(** Lookup tables in the other number space and in the other domain. *)
From Verif Require Export Proof_Lut Proof_FftMore.
Local Open Scope nat_scope.

Section any.
Context {A : Type} `{Num A} `{Flt A} `{F : Fft A}.

(** The vectors which the code makes of a table *)
Lemma table_cplx (c : list (A * A)) d dm : cplx (DVec (Storage KVec (2 * length c) (complex_to_array c)) d dm NComplex (2 * length c)) c.
Proof using.
  split; [done|]. apply (vdata_intro _ _ []); cbn [elems Model_Vec.data s_elems valid_len]; [by rewrite app_nil_r | by rewrite complex_to_array_length].
Qed.
Lemma table_reals (l : list A) d n (w := DVec (Storage KVec (2 * n) (replicate (2 * n) n0)) n1 DTime NReal (2 * n)) : length l = n ->
  exists v' res e, Model_Vec.resize n0 w n = (v', res) /\ copy_into (elems v') 0 n l = Done e /\
    let v := set_delta (set_elems v' e) d in reals v l /\ alloc_len v = 2 * n /\ delta v = d /\ vdomain v = Time /\ typed v /\ ~ runtime v.
Proof using.
  intros Hl. unfold Model_Vec.resize. cbn [is_complex number_space w andb]. cbv iota. unfold alloc_len at 1, s_len. cbn [Model_Vec.data w s_elems]. rewrite replicate_length.
  rewrite (proj2 (Nat.ltb_ge _ _)) by lia. eexists _, _, _. split; [reflexivity|]. change (elems (set_valid_len w n)) with (replicate (2 * n) (n0 : A)).
  rewrite copy_into_Done; [|lia | rewrite replicate_length; lia | lia]. split; [reflexivity|]. cbv zeta. split_and!; try done.
  - split; [done|]. apply (vdata_intro _ _ (drop n (replicate (2 * n) n0))); cbn; [done | done].
  - change (length (take 0 (replicate (2 * n) (n0 : A)) ++ l ++ drop n (replicate (2 * n) n0)) = 2 * n). rewrite !app_length, drop_length, replicate_length, Hl. rewrite take_0. cbn [length]. lia.
  - intros (? & ? & ? & ?). done.
Qed.

Theorem lut_to_complex_spec (t : lut A A) : lut_table t <> [] ->
  lut_to_complex t = Done (Lut (map (fun x => (x, n0)) (lut_table t)) (lut_delta t) (lut_symmetric t)).
Proof using.
  intros Hne. unfold lut_to_complex. cbv zeta. destruct (table_reals (lut_table t) (lut_delta t) _ eq_refl) as (v' & res & e & -> & -> & Hv & Ha & _ & _ & Ht & _). rewrite bind_Done.
  destruct (to_complex_b_spec (FixedLenBuffer (replicate (2 * length (lut_table t)) n0)) _ _ Hv Hne Ht) as (v2 & b' & -> & [_ Hc] & _).
  { split; [by rewrite replicate_length | by rewrite Ha]. }
  rewrite bind_Done, Hc, bind_Done, array_to_complex_Done. done.
Qed.
Theorem lut_to_real_spec s sched (t : lut A (A * A)) : lut_to_real s sched t = Done (Lut (map fst (lut_table t)) (lut_delta t) (lut_symmetric t)).
Proof using.
  unfold lut_to_real. cbv zeta.
  destruct (complex_to_real_b_spec fst s sched (FixedLenBuffer (replicate (length (lut_table t)) n0)) _ _ (table_cplx (lut_table t) (lut_delta t) DTime)) as (v2 & b' & E & [_ Hr] & _).
  { done. } { split; [by rewrite replicate_length|]. unfold alloc_len, s_len. cbn. rewrite complex_to_array_length. lia. }
  unfold to_real_b. rewrite E, bind_Done, Hr. done.
Qed.

Context (Hlf : forall c, length (fft_forward c) = length c) (Hli : forall c, length (fft_inverse c) = length c).
Theorem lut_fft_spec (t : lut A (A * A)) : fft_inplace_scratch_len (length (lut_table t)) <= length (lut_table t) ->
  exists X, lut_fft t = Done (Lut X (nofnat (length (lut_table t)) * lut_delta t)%num (lut_symmetric t)) /\ rotated_by (length (lut_table t) / 2) (fft_forward (lut_table t)) X.
Proof using Hlf.
  intros Hs. unfold lut_fft. cbv zeta.
  destruct (fft_any Hlf (FixedLenBuffer (replicate (2 * length (lut_table t)) n0)) _ _ (table_cplx (lut_table t) (lut_delta t) DTime)) as (v' & b' & X & -> & [_ Hc] & Hrot & _ & _ & Hd & _).
  { done. } { done. } { cbn [spare]. rewrite replicate_length. lia. }
  rewrite bind_Done, Hc, bind_Done, array_to_complex_Done, bind_Done, Hd. exists X. done.
Qed.
Theorem lut_fft_scratch (t : lut A (A * A)) : length (lut_table t) < fft_inplace_scratch_len (length (lut_table t)) -> lut_fft t = Panicked.
Proof using.
  intros Hs. unfold lut_fft. cbv zeta. unfold vfft, plain_fft. change (ddomain_eqb (vdomain _) Time) with true. change (is_complex _) with true. cbn [negb]. cbv iota. rewrite bind_Done. unfold run_fft. cbn [len valid_len].
  replace (2 * length (lut_table t) / 2) with (length (lut_table t)) by lia. cbn [borrow]. rewrite replicate_length, (proj2 (Nat.ltb_lt _ _)) by lia. done.
Qed.
Theorem lut_real_fft_spec (t : lut A A) : lut_table t <> [] -> fft_inplace_scratch_len (length (lut_table t)) <= length (lut_table t) ->
  exists X, lut_real_fft t = Done (Lut (map cnorm X) (nofnat (length (lut_table t)) * lut_delta t)%num (lut_symmetric t)) /\
    rotated_by (length (lut_table t) / 2) (fft_forward (map (fun x => (x, n0)) (lut_table t))) X.
Proof using Hlf.
  intros Hne Hs. unfold lut_real_fft. cbv zeta. destruct (table_reals (lut_table t) (lut_delta t) _ eq_refl) as (v' & res & e & -> & -> & Hv & Ha & Hd & Hdm & Ht & _). rewrite bind_Done.
  destruct (fft_any_real Hlf (FixedLenBuffer (replicate (2 * length (lut_table t)) n0)) _ _ Hv Hne) as (w & b' & X & -> & Hc & Hrot & _ & Hdw & Htw & _).
  { done. } { done. } { split; [by rewrite replicate_length | by rewrite Ha]. } { cbn [spare]. rewrite replicate_length. lia. }
  rewrite bind_Done. unfold magnitude. destruct (complex_to_real_spec cnorm w X Hc Htw) as (u & -> & [_ Hr] & (Hdu & _) & _). rewrite bind_Done, Hr, bind_Done, Hdu, Hdw, Hd. exists X. done.
Qed.
Theorem lut_ifft_spec r addr s sched (t : lut A (A * A)) (n := length (lut_table t)) : reg_ok r -> elem_aligned r addr -> simd_fits r addr (2 * n) -> n <> 1 ->
  fft_inplace_scratch_len n <= n ->
  exists X, lut_ifft r addr s sched t = Done (Lut (fft_inverse X) (nofnat n * lut_delta t)%num (lut_symmetric t)) /\
    rotated_by (n - n / 2) (map (fun x => (fst x * (n1 / nofnat n), snd x * (n1 / nofnat n)))%num (lut_table t)) X.
Proof using Hli.
  intros Hr Ha Hf Hn Hs. unfold lut_ifft. cbv zeta. fold n.
  destruct (ifft_any Hli r addr s sched (FixedLenBuffer (replicate (2 * n) n0)) (DVec (Storage KVec (2 * n) (complex_to_array (lut_table t))) (lut_delta t) DFreq NComplex (2 * n)) (lut_table t) Hr Ha)
    as (v' & b' & X & -> & [_ Hc] & Hrot & _ & _ & _ & Hd & _).
  { done. } { apply (table_cplx (lut_table t) (lut_delta t) DFreq). } { done. } { done. } { done. } { cbn [spare]. rewrite replicate_length. fold n. lia. }
  rewrite bind_Done, Hc, bind_Done, array_to_complex_Done, bind_Done, Hd. exists X. done.
Qed.
End any.

(** ** There and back over the real numbers *)
Local Open Scope R_scope.
Section real.
Context `{F : Fft R} (HF : computes_dft).
Let Hlf : forall c, length (fft_forward c) = length c. Proof. intros c. destruct HF as (-> & _). apply dft_length. Qed.
Let Hli : forall c, length (fft_inverse c) = length c. Proof. intros c. destruct HF as (_ & -> & _). apply dft_length. Qed.

Theorem lut_fft_ifft r addr s sched (t : lut R (R * R)) (n := length (lut_table t)) : reg_ok r -> elem_aligned r addr -> simd_fits r addr (2 * n) -> n <> 1%nat ->
  (fft_inplace_scratch_len n <= n)%nat ->
  exists u, lut_fft t = Done u /\ lut_ifft r addr s sched u = Done (Lut (lut_table t) (INR n * (INR n * lut_delta t)) (lut_symmetric t)).
Proof using HF.
  intros Hr Ha Hf Hn Hs. destruct (lut_fft_spec Hlf t Hs) as (X & E & Rot). eexists. split; [exact E|].
  assert (HlX : length X = n). { destruct Rot as [El _]. by rewrite El, Hlf. }
  destruct (lut_ifft_spec Hli r addr s sched (Lut X (nofnat (length (lut_table t)) * lut_delta t)%num (lut_symmetric t))) as (Y & E2 & Rot2); cbn [lut_table]; rewrite ?HlX; try done.
  rewrite E2. cbn [lut_table lut_delta lut_symmetric] in Rot2 |- *. rewrite HlX in Rot2 |- *. set (c := lut_table t) in *.
  change (length c) with n. change (nofnat n * (nofnat n * lut_delta t))%num with (INR n * (INR n * lut_delta t)).
  enough (Ec : c = fft_inverse Y) by (by rewrite <- Ec).
  destruct (decide (c = [])) as [Ec|Hne].
  { destruct Y; [|destruct Rot2 as [El _]; rewrite map_length, HlX in El; unfold n in El; rewrite Ec in El; done]. rewrite Ec. by destruct HF as (_ & -> & _). }
  assert (Hn0 : n <> 0%nat) by (unfold n; by destruct c).
  assert (EY : Y = map (rscale (1 / INR n)) (fft_forward c)).
  { apply rotated_back with (n / 2)%nat (n - n / 2)%nat (map (rscale (1 / INR n)) X).
    - by apply rotated_map.
    - exact Rot2.
    - intros El. apply (f_equal length) in El. rewrite map_length, Hlf in El. cbn in El. lia.
    - rewrite map_length, Hlf. change (length c) with n. replace (n / 2 + (n - n / 2))%nat with n by lia. by apply Nat.mod_same. }
  destruct HF as (HF1 & HF2 & _). rewrite HF2, EY, HF1, dft_scale, (dft_dft (-1) 1) by (auto || done). symmetry. by apply scale_back.
Qed.
End real.
