From Verif Require Export Proof_Dft Proof_ElemOps Proof_ComplexSet Proof_ReorgMore Proof_WindowR.
From stdpp Require Import list_numbers.
Local Open Scope nat_scope.

Section any.
Context {A : Type} `{Num A} `{Flt A} `{Rem A} `{Trig A} `{F : Fft A}.

Lemma borrow_spare (b : buffer A) n : spare b n -> exists temp, borrow n0 b n = Done temp /\ length temp = n /\ still_spare b (give_back b temp).
Proof.
  intros Hb. destruct b as [temp| |store]; cbn [borrow give_back].
  - eexists. split; [reflexivity|]. split; [|done]. unfold resized. rewrite app_length, take_length, replicate_length. lia.
  - eexists. split; [done|]. split; [apply replicate_length|done].
  - simpl in Hb. destruct (length store <? n) eqn:E; [apply Nat.ltb_lt in E; lia|]. eexists. split; [done|]. split; [rewrite take_length; lia|exact (fun _ h => h)].
Qed.

Lemma run_fft_spec f b (v : dvec A) c : vdata v = Done (complex_to_array c) -> length (f c) = length c -> spare b (2 * fft_inplace_scratch_len (length c)) ->
  exists v' b', run_fft f b v = Done (v', b') /\ vdata v' = Done (complex_to_array (f c)) /\ same_rest v v' /\
    delta v' = (nofnat (length c) * delta v)%num /\ number_space v' = number_space v /\ domain v' = domain v /\ still_spare b b'.
Proof.
  intros Hv Hf Hb. unfold run_fft. pose proof (reals_len v _ Hv) as Hlen. rewrite complex_to_array_length in Hlen.
  assert (Hp : len v / 2 = length c) by (rewrite Hlen; lia). rewrite Hp.
  destruct (borrow_spare b _ Hb) as (temp & -> & _ & Hs). rewrite bind_Done.
  destruct (vdata_split v _ Hv) as (rest & He & Hn). rewrite He.
  assert (E : slice (complex_to_array c ++ rest) 0 (len v) = Done (complex_to_array c)).
  { rewrite slice_Done by (rewrite ?app_length, ?complex_to_array_length; lia). rewrite drop_0, Nat.sub_0_r. f_equal. apply take_app_alt. rewrite complex_to_array_length. lia. }
  rewrite E, bind_Done, array_to_complex_Done, bind_Done. rewrite (splice_Done (complex_to_array c ++ rest)) by (rewrite app_length, !complex_to_array_length; lia).
  rewrite bind_Done. eexists _, _. split; [done|]. cbn [take app]. rewrite (drop_app_alt (complex_to_array c) rest) by (rewrite !complex_to_array_length; lia).
  split_and!; try done.
  - apply vdata_intro with rest; [done|]. cbn. rewrite complex_to_array_length. unfold len in Hlen. lia.
  - unfold same_rest. split_and!; try done. rewrite He. cbn [Model_Vec.data set_delta set_elems set_data elems s_elems].
    unfold len in Hlen. rewrite take_0. cbn [app]. rewrite !drop_app_alt; try done; rewrite ?complex_to_array_length; lia.
Qed.

(** ** Buffers keep their room *)
Lemma still_spare_refl (b : buffer A) : still_spare b b. Proof. exact (fun _ h => h). Qed.
Lemma still_spare_trans (b1 b2 b3 : buffer A) : still_spare b1 b2 -> still_spare b2 b3 -> still_spare b1 b3.
Proof. intros H12 H23 n Hn. apply H23, H12, Hn. Qed.
Lemma trade_spare (b b' : buffer A) t st st' : trade b t st = (st', b') -> still_spare b b'.
Proof.
  destruct b as [temp| |store]; cbn [trade]; intros E; injection E as _ <-; intros n Hn; try done. simpl in *. rewrite app_length, drop_length. lia.
Qed.
Lemma zero_interleave_b_spare b (v v' : dvec A) b' f : zero_interleave_b n0 b v f = Done (v', b') -> still_spare b b'.
Proof.
  unfold zero_interleave_b. cbv zeta. destruct (f <=? 1); [intros E; injection E as _ <-; exact (fun _ h => h)|].
  destruct (borrow n0 b _) as [t|]; [|done]. rewrite bind_Done. destruct (slice _ _ _) as [sr|]; [|done]. rewrite bind_Done.
  destruct (rd t 0); [|done]. rewrite bind_Done. destruct (while_ _ _ _ _) as [rr|]; [|done]. rewrite bind_Done.
  destruct (trade b _ _) as [st b''] eqn:E. intros E'. injection E' as _ <-. by eapply trade_spare.
Qed.

(** ** The last step of the transforms *)
Lemma vdata_force t (v : dvec A) : vdata (rededicate_from_force t (vec_to_freq v)) = vdata v.
Proof. by destruct t, v. Qed.
Lemma delta_force t (v : dvec A) : delta (rededicate_from_force t (vec_to_freq v)) = delta v.
Proof. by destruct t, v. Qed.
Lemma rest_force t (v v' : dvec A) : same_rest v v' -> same_rest v (rededicate_from_force t (vec_to_freq v')).
Proof. by destruct t, v'. Qed.

Definition kept_type (v v' : dvec A) : Prop := typed v' /\ (runtime v' <-> runtime v).

Lemma force_freq (v w : dvec A) : typed v -> domain w = domain v -> (is_complex w = true \/ ~ runtime v) ->
  (runtime v -> exists c, number_space w = NDyn c) ->
  let v' := rededicate_from_force (freq_result v) (vec_to_freq w) in
  is_complex v' = true /\ vdomain v' = Frequency /\ typed v' /\ (runtime v' <-> runtime v).
Proof.
  intros Ht Hd Hc Hn. unfold freq_result, gen_or, typed, runtime in *. destruct v as [st dl dm ns vl], w as [st' dl' dm' ns' vl']. cbn in *. subst dm'.
  destruct ns, dm; try done; cbn; try (split_and!; try done; split; intros (? & ? & ? & ?); done).
  destruct Hn as [c ->]; [by eexists _, _|]. destruct Hc as [Hc|Hc]; [|exfalso; apply Hc; by eexists _, _].
  split_and!; try done. split; intros _; by eexists _, _.
Qed.

Lemma force_time (v w : dvec A) : typed v -> domain w = domain v -> (is_complex w = true \/ ~ runtime v) ->
  (runtime v -> exists c, number_space w = NDyn c) ->
  let v' := rededicate_from_force (time_result v) (vec_to_freq w) in
  is_complex v' = true /\ (runtime v -> vdomain v' = Frequency) /\ (~ runtime v -> vdomain v' = Time) /\ typed v' /\ (runtime v' <-> runtime v).
Proof.
  intros Ht Hd Hc Hn. unfold time_result, gen_or, typed, runtime in *. destruct v as [st dl dm ns vl], w as [st' dl' dm' ns' vl']. cbn in *. subst dm'.
  destruct ns, dm; try done; cbn; try (split_and!; try done; intros (? & ? & ? & ?); done); try (split_and!; try done; [intros (? & ? & ? & ?); done | split; intros (? & ? & ? & ?); done]).
  destruct Hn as [c ->]; [by eexists _, _|]. destruct Hc as [Hc|Hc]; [|exfalso; apply Hc; by eexists _, _].
  split_and!; try done. { intros Hx. exfalso. apply Hx. by eexists _, _. } split; intros _; by eexists _, _.
Qed.
End any.

(** ** The transforms of complex and of real vectors; [T] is what the planned transform computes *)
Section transforms.
Context {A : Type} `{Num A} `{Flt A} `{Rem A} `{Trig A} `{F : Fft A}.
Context (Hlf : forall c, length (fft_forward c) = length c) (Hli : forall c, length (fft_inverse c) = length c).

Theorem plain_fft_any b (v : dvec A) c : cplx v c -> vdomain v = Time -> typed v -> spare b (2 * fft_inplace_scratch_len (length c)) ->
  exists v' b', plain_fft b v = Done (v', b') /\ cplx v' (fft_forward c) /\ vdomain v' = Frequency /\ same_rest v v' /\
    delta v' = (nofnat (length c) * delta v)%num /\ typed v' /\ (runtime v' <-> runtime v) /\ still_spare b b'.
Proof using Hlf.
  intros [Hc Hv] Hd Ht Hb. unfold plain_fft. rewrite Hd, Hc. cbn [ddomain_eqb negb]. cbv zeta. rewrite bind_Done.
  destruct (run_fft_spec fft_forward b v c Hv (Hlf c) Hb) as (w & b' & -> & Hw & Hr & Hdl & Hns & Hdm & Hs). rewrite bind_Done.
  eexists _, _. split; [reflexivity|]. destruct (force_freq v w Ht Hdm) as (K1 & K2 & K3 & K4).
  - left. unfold is_complex in *. congruence.
  - intros (cc & dd & E & _). exists cc. congruence.
  - split_and!; try done; [split; [done | by rewrite vdata_force] | by apply rest_force | by rewrite delta_force].
Qed.
Theorem plain_fft_any_real b (v : dvec A) l : reals v l -> l <> [] -> vdomain v = Time -> typed v -> lends b v (2 * length l) ->
  spare b (2 * fft_inplace_scratch_len (length l)) ->
  exists v' b', plain_fft b v = Done (v', b') /\ cplx v' (fft_forward (map (fun x => (x, n0)) l)) /\ vdomain v' = Frequency /\
    delta v' = (nofnat (length l) * delta v)%num /\ typed v' /\ (runtime v' <-> runtime v) /\ still_spare b b'.
Proof using Hlf.
  intros Hv Hne Hd Ht Hb Hb2. unfold plain_fft. rewrite Hd, (proj1 Hv). cbn [ddomain_eqb negb]. cbv zeta.
  destruct (zero_interleave_b_real n0 b v l 2 Hv Hne ltac:(lia)) as (v1 & b1 & E1 & (M1 & M2 & M3) & [C1 R1]); [by rewrite Nat.mul_comm|].
  rewrite E1, !bind_Done. apply zero_interleave_b_spare in E1. rewrite interleaved_pairs in R1.
  destruct (run_fft_spec fft_forward b1 (vec_to_complex v1) (map (fun x => (x, n0)) l)) as (w & b' & -> & Hw & Hr & Hdl & Hns & Hdm & Hs).
  { done. } { apply Hlf. } { rewrite map_length. by apply E1. }
  rewrite bind_Done. rewrite map_length in Hdl.
  eexists _, _. split; [reflexivity|]. destruct (force_freq v w Ht) as (K1 & K2 & K3 & K4).
  - rewrite Hdm. destruct v1; done.
  - destruct (number_space v1) eqn:En; [right | left; unfold is_complex; rewrite Hns; unfold vec_to_complex; destruct v1; cbn in *; by rewrite En..].
    intros (cc & dd & E & _). congruence.
  - intros (cc & dd & E & _). rewrite <- M3 in E. exists true. rewrite Hns. unfold vec_to_complex. destruct v1; cbn in *. by rewrite E.
  - split_and!; try done; [split; [done | by rewrite vdata_force] | | by eapply still_spare_trans].
    rewrite delta_force, Hdl. destruct v1; cbn in *. by rewrite M1.
Qed.

Theorem plain_ifft_any b (v : dvec A) c : cplx v c -> vdomain v = Frequency -> typed v -> spare b (2 * fft_inplace_scratch_len (length c)) ->
  exists v' b', plain_ifft b v = Done (v', b') /\ cplx v' (fft_inverse c) /\ same_rest v v' /\
    (runtime v -> vdomain v' = Frequency) /\ (~ runtime v -> vdomain v' = Time) /\
    delta v' = (nofnat (length c) * delta v)%num /\ typed v' /\ (runtime v' <-> runtime v) /\ still_spare b b'.
Proof using Hli.
  intros [Hc Hv] Hd Ht Hb. unfold plain_ifft. rewrite Hd, Hc. cbn [ddomain_eqb negb]. cbv zeta. rewrite bind_Done.
  destruct (run_fft_spec fft_inverse b v c Hv (Hli c) Hb) as (w & b' & -> & Hw & Hr & Hdl & Hns & Hdm & Hs). rewrite bind_Done.
  eexists _, _. split; [reflexivity|]. destruct (force_time v w Ht Hdm) as (K1 & K2 & K3 & K4 & K5).
  - left. unfold is_complex in *. congruence.
  - intros (cc & dd & E & _). exists cc. congruence.
  - split_and!; try done; [split; [done | by rewrite vdata_force] | by apply rest_force | by rewrite delta_force].
Qed.

(** The wrong domain *)
Theorem plain_fft_wrong b (v : dvec A) : vdomain v <> Time -> typed v ->
  exists v', plain_fft b v = Done (v', b) /\ poisoned v' /\ is_complex v' = true /\ vdomain v' = Frequency.
Proof.
  intros Hd Ht. unfold plain_fft. destruct (vdomain v) eqn:E; [done|]. cbn [ddomain_eqb negb]. eexists. split; [reflexivity|].
  unfold invalid_transform, freq_result, gen_or, typed, poisoned in *. destruct v as [st dl dm ns vl]. cbn in *. destruct ns, dm; done.
Qed.
Theorem plain_ifft_wrong b (v : dvec A) : vdomain v <> Frequency -> typed v ->
  exists v', plain_ifft b v = Done (v', b) /\ poisoned v' /\ is_complex v' = true.
Proof.
  intros Hd Ht. unfold plain_ifft. destruct (vdomain v) eqn:E; [|done]. cbn [ddomain_eqb negb]. eexists. split; [reflexivity|].
  unfold invalid_transform, time_result, gen_or, typed, poisoned in *. destruct v as [st dl dm ns vl]. cbn in *. destruct ns, dm; done.
Qed.

(** With the shift of the halves *)
Theorem fft_any b (v : dvec A) c : cplx v c -> vdomain v = Time -> typed v -> spare b (2 * fft_inplace_scratch_len (length c)) ->
  exists v' b' X, vfft b v = Done (v', b') /\ cplx v' X /\ rotated_by (length c / 2) (fft_forward c) X /\ vdomain v' = Frequency /\ same_rest v v' /\
    delta v' = (nofnat (length c) * delta v)%num /\ typed v' /\ (runtime v' <-> runtime v) /\ still_spare b b'.
Proof using Hlf.
  intros Hv Hd Ht Hb. destruct (plain_fft_any b v c Hv Hd Ht Hb) as (w & b' & E & Hw & Hwd & Hr & Hdl & Hwt & Hrt & Hs).
  unfold vfft. rewrite E, bind_Done. destruct (swap_halves_cplx w (fft_forward c) Hw) as (v' & X & _ & -> & HX & Hrot & (M1 & M2 & M3) & Hr').
  rewrite bind_Done. rewrite Hlf in Hrot. exists v', b', X. split_and!; try done.
  - unfold vdomain in *. congruence.
  - by apply same_rest_trans with w.
  - congruence.
  - unfold typed in *. by rewrite M2, M3.
  - unfold runtime in *. rewrite M2, M3. apply Hrt.
Qed.
End transforms.
