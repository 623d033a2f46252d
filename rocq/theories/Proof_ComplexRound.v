(** Round trips between complex vectors and their parts. *)
From Verif Require Export Proof_ComplexMath.

Section round.
Context {A : Type} `{Num A} `{Flt A}.

Lemma zip_fst_snd {B} (c : list (A * B)) : zip (map fst c) (map snd c) = c.
Proof. induction c as [|[x y] c IH]; [done|]. simpl. f_equal. exact IH. Qed.

Theorem get_set_real_imag (v re im : dvec A) c : cplx v c -> s_kind (data v) = KVec -> takes re (length c) -> takes im (length c) ->
  exists re' im' v', get_real_imag v re im = Done (re', im') /\ set_real_imag v re' im' = Done (v', Ok tt) /\ cplx v' c /\ same_meta v v'.
Proof.
  intros Hv Hk H1 H2. destruct (get_real_imag_spec v re im c Hv H1 H2) as (re' & im' & E & [_ R1] & [_ R2] & _).
  destruct (set_real_imag_spec v re' im' _ _ Hk R1 R2) as (v' & E' & D & M & _); [by rewrite !map_length|].
  exists re', im', v'. split_and!; try done. split; [by rewrite (meta_is_complex v v' M); apply Hv|]. by rewrite D, zip_fst_snd.
Qed.

Theorem get_set_mag_phase (v mag ph : dvec A) c : (forall x y, fpolar (fhypot x y) (fatan2 y x) = (x, y)) ->
  cplx v c -> s_kind (data v) = KVec -> takes mag (length c) -> takes ph (length c) ->
  exists mag' ph' v', get_mag_phase v mag ph = Done (mag', ph') /\ set_mag_phase v mag' ph' = Done (v', Ok tt) /\ cplx v' c /\ same_meta v v'.
Proof.
  intros Hlaw Hv Hk H1 H2. destruct (get_mag_phase_spec v mag ph c Hv H1 H2) as (re' & im' & E & [_ R1] & [_ R2] & _).
  destruct (set_mag_phase_spec v re' im' _ _ Hk R1 R2) as (v' & E' & D & M & _); [by rewrite !map_length|].
  exists re', im', v'. split_and!; try done. split; [by rewrite (meta_is_complex v v' M); apply Hv|]. rewrite D. do 2 f_equal.
  clear -Hlaw. induction c as [|[x y] c IH]; [done|]. simpl. f_equal; [apply Hlaw|exact IH].
Qed.

Theorem set_get_real_imag (v re im : dvec A) lr li : is_complex v = true -> s_kind (data v) = KVec -> reals re lr -> reals im li -> length lr = length li ->
  takes re (length lr) -> takes im (length lr) ->
  exists v' re' im', set_real_imag v re im = Done (v', Ok tt) /\ cplx v' (zip lr li) /\ same_meta v v' /\
    get_real_imag v' re im = Done (re', im') /\ reals re' lr /\ reals im' li.
Proof.
  intros Hc Hk [Hcr Hr] [Hci Hi] Hl T1 T2. destruct (set_real_imag_spec v re im lr li Hk Hr Hi Hl) as (v' & E & D & M & _).
  assert (Hv' : cplx v' (zip lr li)) by (split; [by rewrite (meta_is_complex v v' M)|done]).
  assert (Hz : length (zip lr li) = length lr) by (rewrite zip_with_length; lia).
  destruct (get_real_imag_spec v' re im _ Hv') as (re' & im' & E' & R1 & R2 & _); [by rewrite Hz|by rewrite Hz|].
  exists v', re', im'. split_and!; try done.
  - replace lr with (map fst (zip lr li)) at 1; [done|]. clear -Hl. revert li Hl. induction lr as [|x lr IH]; intros [|y li] Hl; try done. simpl. f_equal. apply IH. by injection Hl.
  - replace li with (map snd (zip lr li)) at 1; [done|]. clear -Hl. revert li Hl. induction lr as [|x lr IH]; intros [|y li] Hl; try done. simpl. f_equal. apply IH. by injection Hl.
Qed.

Theorem to_complex_to_real (v : dvec A) l : reals v l -> typed v -> wf_storage (data v) -> can_hold (data v) (2 * length l) ->
  exists v1 v2, to_complex v = Done (v1, Ok tt) /\ cplx v1 (map (fun x => (x, n0)) l) /\ to_real v1 = Done v2 /\ reals v2 l /\ converted v v2.
Proof.
  intros Hv Ht Hs Hh. destruct (to_complex_spec v l Hv Ht Hs Hh) as (v1 & E1 & C1 & (K1 & K2 & K3 & K4)).
  destruct (complex_to_real_spec fst v1 _ C1 K3) as (v2 & E2 & R2 & (J1 & J2 & J3 & J4) & _).
  exists v1, v2. split_and!; try done.
  - by rewrite map_map, map_id in R2.
  - unfold converted. split_and!; try congruence. by rewrite J4.
Qed.
Theorem to_complex_to_imag (v : dvec A) l : reals v l -> typed v -> wf_storage (data v) -> can_hold (data v) (2 * length l) ->
  exists v1 v2, to_complex v = Done (v1, Ok tt) /\ to_imag v1 = Done v2 /\ reals v2 (replicate (length l) n0) /\ converted v v2.
Proof.
  intros Hv Ht Hs Hh. destruct (to_complex_spec v l Hv Ht Hs Hh) as (v1 & E1 & C1 & (K1 & K2 & K3 & K4)).
  destruct (complex_to_real_spec snd v1 _ C1 K3) as (v2 & E2 & R2 & (J1 & J2 & J3 & J4) & _).
  exists v1, v2. split_and!; try done.
  - rewrite map_map in R2. simpl in R2. replace (replicate (length l) n0) with (map (fun _ : A => n0) l); [done|]. clear. induction l; simpl; congruence.
  - unfold converted. split_and!; try congruence. by rewrite J4.
Qed.
End round.
