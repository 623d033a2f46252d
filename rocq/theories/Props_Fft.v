(** C31, C32, C33, C34, C35, C49: the transforms between time and frequency domain. The transforms of rustfft are a parameter of the model; where the
    values matter, [computes_dft] says that they are the discrete Fourier transform. *)
From Verif Require Import Proof_FftMore Proof_SifftExact.
From Verif Require Import Spec_Fft Model_Chunk.
Local Open Scope nat_scope.

Definition ex_vec {A} `{Num A} (ns : nspace) (d : dmarker) (l : list A) : dvec A := DVec (Storage KVec (length l) l) n1 d ns (length l).
Definition one_core : settings := with_thresholds 1 2 3 2 3.
(** A transform over the integers, to run examples: it rotates the points, which is all that is needed to follow the data *)
Definition Zfft : Fft Z := {| fft_forward := @rev _; fft_inverse := @rev _; fft_rest := fun c => c; fft_inplace_scratch_len := fun n => n; fft_outofplace_scratch_len := fun _ => 0 |}.
Lemma exact_fft_computes : @computes_dft exact_fft.
Proof. split_and!; try done. intros c. apply map_length. Qed.
Lemma ex_len c : length (@fft_inverse R exact_fft c) = length c.
Proof. unfold fft_inverse, exact_fft, dft. by rewrite map_length, seq_length. Qed.
Lemma aligned_ex : aligned_all f64x2 48.
Proof. unfold aligned_all, reg_ok, elem_aligned, half_aligned, point_aligned. vm_compute. split_and!; try lia; done. Qed.

(** * C31 ifft (fft x) = x *)
Theorem C31_complex : forall `{F : Fft R}, computes_dft -> forall r addr s sched b (v : dvec R) c,
  reg_ok r -> elem_aligned r addr -> simd_fits r addr (len v) ->
  cplx v c -> length c <> 1 -> vdomain v = Time -> typed v -> spare b (2 * fft_inplace_scratch_len (length c)) ->
  exists v1 b1 v2 b2, vfft b v = Done (v1, b1) /\ vifft r addr s sched b1 v1 = Done (v2, b2) /\ cplx v2 c /\ same_rest v v2.
Proof. exact @fft_ifft. Qed.
Print Assumptions C31_complex.

Theorem C31_real : forall `{F : Fft R}, computes_dft -> forall r addr s sched b (v : dvec R) l,
  reg_ok r -> elem_aligned r addr -> simd_fits r addr (2 * len v) ->
  reals v l -> l <> [] -> length l <> 1 -> vdomain v = Time -> typed v -> lends b v (2 * length l) -> spare b (2 * fft_inplace_scratch_len (length l)) ->
  exists v1 b1 v2 b2, vfft b v = Done (v1, b1) /\ vifft r addr s sched b1 v1 = Done (v2, b2) /\ cplx v2 (map (fun x => (x, 0%R)) l).
Proof. exact @fft_ifft_real. Qed.
Print Assumptions C31_real.

(** What is missing: a single point panics, since the shift of the halves divides the empty rest. *)
Theorem C31_single_refuted : forall {A} `{Num A} `{F : Fft A} r addr s sched b (v : dvec A) x,
  reg_ok r -> elem_aligned r addr -> simd_fits r addr (len v) -> cplx v [x] -> vifft r addr s sched b v = Panicked.
Proof. exact @ifft_single. Qed.
Print Assumptions C31_single_refuted.

(** The plain transforms restore every vector up to the number of points. *)
Theorem C31_plain : forall `{F : Fft R}, computes_dft -> forall b (v : dvec R) c,
  cplx v c -> vdomain v = Time -> typed v -> spare b (2 * fft_inplace_scratch_len (length c)) ->
  exists v1 b1 v2 b2, plain_fft b v = Done (v1, b1) /\ plain_ifft b1 v1 = Done (v2, b2) /\
    cplx v2 (map (fun x => (INR (length c) * fst x, INR (length c) * snd x)%R) c) /\ same_rest v v2.
Proof. exact @plain_fft_ifft. Qed.
Print Assumptions C31_plain.

(** The windowed transforms restore the points when the window has no zeros. *)
Theorem C31_windowed : forall `{F : Fft R}, computes_dft -> forall w r addr s sched sched' sched'' b (v : dvec R) c,
  reg_ok r -> elem_aligned r addr -> simd_fits r addr (len v) ->
  cplx v c -> length c <> 1 -> vdomain v = Time -> typed v -> spare b (2 * fft_inplace_scratch_len (length c)) ->
  (w_symmetric w = true -> mirrored (w_fun w) (length c) /\ pairs_up s (length c)) ->
  (w_symmetric w = false -> 0 < length c \/ no_threads_for_nothing Medium s) ->
  (forall i, i < length c -> w_fun w i (length c) <> 0%R) ->
  exists v1 b1 v2 b2, windowed_fft w s sched b v = Done (v1, b1) /\ windowed_ifft w r addr s sched' sched'' b1 v1 = Done (v2, b2) /\ cplx v2 c.
Proof. exact @windowed_fft_ifft. Qed.
Print Assumptions C31_windowed.

Example C31_example : let v := ex_vec NComplex DTime [1; 2; 3; 4; 5; 6]%R in
  exists v1 b1 v2 b2, vfft (F := exact_fft) (SingleBuffer []) v = Done (v1, b1) /\ vifft (F := exact_fft) f64x2 48 one_core [] b1 v1 = Done (v2, b2) /\
    cplx v2 [(1, 2); (3, 4); (5, 6)]%R.
Proof.
  intros v. pose proof aligned_ex as (? & ? & ? & ?).
  destruct (C31_complex (F := exact_fft) exact_fft_computes f64x2 48 one_core [] (SingleBuffer []) v [(1, 2); (3, 4); (5, 6)]%R)
    as (v1 & b1 & v2 & b2 & ? & ? & ? & _); try done. { by left. } by exists v1, b1, v2, b2.
Qed.
Example C31_example_real : let v := ex_vec NReal DTime [1; 2; 3]%R in
  exists v1 b1 v2 b2, vfft (F := exact_fft) (SingleBuffer []) v = Done (v1, b1) /\ vifft (F := exact_fft) f64x2 48 one_core [] b1 v1 = Done (v2, b2) /\
    cplx v2 [(1, 0); (2, 0); (3, 0)]%R.
Proof.
  intros v. pose proof aligned_ex as (? & ? & ? & ?).
  destruct (C31_real (F := exact_fft) exact_fft_computes f64x2 48 one_core [] (SingleBuffer []) v [1; 2; 3]%R) as (v1 & b1 & v2 & b2 & ? & ? & ?); try done.
  { by left. } by exists v1, b1, v2, b2.
Qed.
Example C31_example_plain : let v := ex_vec NComplex DTime [1; 2; 3; 4]%R in
  exists v1 b1 v2 b2, plain_fft (F := exact_fft) (FixedLenBuffer [0; 0; 0; 0]%R) v = Done (v1, b1) /\ plain_ifft (F := exact_fft) b1 v1 = Done (v2, b2) /\
    cplx v2 [(2, 4); (6, 8)]%R.
Proof.
  intros v. destruct (C31_plain (F := exact_fft) exact_fft_computes (FixedLenBuffer [0; 0; 0; 0]%R) v [(1, 2); (3, 4)]%R) as (v1 & b1 & v2 & b2 & ? & ? & Hc & _); try done.
  { cbn. lia. }
  exists v1, b1, v2, b2. split_and!; try done. cbn in Hc. replace ((1 + 1) * 1)%R with 2%R in Hc by lra. replace ((1 + 1) * 2)%R with 4%R in Hc by lra.
  replace ((1 + 1) * 3)%R with 6%R in Hc by lra. by replace ((1 + 1) * 4)%R with 8%R in Hc by lra.
Qed.
Example C31_example_windowed : let v := ex_vec NComplex DTime [1; 2; 3; 4; 5; 6]%R in
  exists v1 b1 v2 b2, windowed_fft (F := exact_fft) rectangular_window one_core [] (SingleBuffer []) v = Done (v1, b1) /\
    windowed_ifft (F := exact_fft) rectangular_window f64x2 48 one_core [] [] b1 v1 = Done (v2, b2) /\ cplx v2 [(1, 2); (3, 4); (5, 6)]%R.
Proof.
  intros v. pose proof aligned_ex as (? & ? & ? & ?).
  apply (C31_windowed (F := exact_fft) exact_fft_computes rectangular_window f64x2 48 one_core [] [] [] (SingleBuffer []) v); try done.
  - by left.
  - intros _. split; [done|]. left. split; [done|]. vm_compute. lia.
  - intros i _. simpl. lra.
Qed.
Example C31_example_single : vifft (F := Zfft) f64x2 48 one_core [] (SingleBuffer []) (ex_vec NComplex DFreq [1; 2]%Z) = Panicked.
Proof. vm_compute. done. Qed.

(** * C32 Domain and number space after a transform *)

(** The values are whatever rustfft computes, in the order of the points; [typed]: the vector is one of the types of the library. *)
Theorem C32_fft_complex : forall {A} `{Num A} `{F : Fft A}, (forall c, length (fft_forward c) = length c) -> forall b (v : dvec A) c,
  cplx v c -> vdomain v = Time -> typed v -> spare b (2 * fft_inplace_scratch_len (length c)) ->
  (exists v' b', plain_fft b v = Done (v', b') /\ cplx v' (fft_forward c) /\ vdomain v' = Frequency /\ typed v') /\
  (exists v' b' X, vfft b v = Done (v', b') /\ rotated_by (length c / 2) (fft_forward c) X /\ cplx v' X /\ vdomain v' = Frequency /\ typed v').
Proof.
  intros A HN F Hlf b v c Hv Hd Ht Hb. split.
  - destruct (plain_fft_any Hlf b v c Hv Hd Ht Hb) as (v' & b' & ? & ? & ? & _ & _ & ? & _). by exists v', b'.
  - destruct (fft_any Hlf b v c Hv Hd Ht Hb) as (v' & b' & X & ? & ? & ? & ? & _ & _ & ? & _). by exists v', b', X.
Qed.
Print Assumptions C32_fft_complex.
Theorem C32_fft_real : forall {A} `{Num A} `{F : Fft A}, (forall c, length (fft_forward c) = length c) -> forall b (v : dvec A) l,
  reals v l -> l <> [] -> vdomain v = Time -> typed v -> lends b v (2 * length l) -> spare b (2 * fft_inplace_scratch_len (length l)) ->
  let c := map (fun x => (x, n0)) l in
  (exists v' b', plain_fft b v = Done (v', b') /\ cplx v' (fft_forward c) /\ vdomain v' = Frequency /\ typed v') /\
  (exists v' b' X, vfft b v = Done (v', b') /\ rotated_by (length l / 2) (fft_forward c) X /\ cplx v' X /\ vdomain v' = Frequency /\ typed v').
Proof.
  intros A HN F Hlf b v l Hv Hne Hd Ht Hb Hb2 c. split.
  - destruct (plain_fft_any_real Hlf b v l Hv Hne Hd Ht Hb Hb2) as (v' & b' & ? & ? & ? & _ & ? & _). by exists v', b'.
  - destruct (fft_any_real Hlf b v l Hv Hne Hd Ht Hb Hb2) as (v' & b' & X & ? & ? & ? & ? & _ & ? & _). by exists v', b', X.
Qed.
Print Assumptions C32_fft_real.

(** The inverse transform says that it is in the time domain only for the types which fix the domain at compile time. *)
Theorem C32_ifft : forall {A} `{Num A} `{F : Fft A}, (forall c, length (fft_inverse c) = length c) -> forall b (v : dvec A) c,
  cplx v c -> vdomain v = Frequency -> typed v -> ~ runtime v -> spare b (2 * fft_inplace_scratch_len (length c)) ->
  exists v' b', plain_ifft b v = Done (v', b') /\ cplx v' (fft_inverse c) /\ vdomain v' = Time /\ typed v'.
Proof.
  intros A HN F Hli b v c Hv Hd Ht Hr Hb. destruct (plain_ifft_any Hli b v c Hv Hd Ht Hb) as (v' & b' & E & Hv' & _ & _ & T2 & _ & ? & _).
  exists v', b'. split_and!; try done. by apply T2.
Qed.
Print Assumptions C32_ifft.
Theorem C32_ifft_runtime_refuted : forall {A} `{Num A} `{F : Fft A}, (forall c, length (fft_inverse c) = length c) -> forall b (v : dvec A) c,
  cplx v c -> vdomain v = Frequency -> runtime v -> spare b (2 * fft_inplace_scratch_len (length c)) ->
  exists v' b', plain_ifft b v = Done (v', b') /\ cplx v' (fft_inverse c) /\ vdomain v' = Frequency.
Proof.
  intros A HN F Hli b v c Hv Hd Hr Hb. assert (Ht : typed v). { destruct Hr as (? & ? & E1 & E2). unfold typed. by rewrite E1, E2. }
  destruct (plain_ifft_any Hli b v c Hv Hd Ht Hb) as (v' & b' & E & Hv' & _ & T1 & _). exists v', b'. split_and!; try done. by apply T1.
Qed.
Print Assumptions C32_ifft_runtime_refuted.
Theorem C32_ifft_shifted : forall {A} `{Num A} `{F : Fft A}, (forall c, length (fft_inverse c) = length c) -> forall r addr s sched b (v : dvec A) c,
  reg_ok r -> elem_aligned r addr -> simd_fits r addr (len v) ->
  cplx v c -> length c <> 1 -> vdomain v = Frequency -> typed v -> spare b (2 * fft_inplace_scratch_len (length c)) ->
  exists v' b' X, vifft r addr s sched b v = Done (v', b') /\ cplx v' (fft_inverse X) /\
    rotated_by (length c - length c / 2) (map (fun x => (fst x * (n1 / nofnat (length c)), snd x * (n1 / nofnat (length c))))%num c) X /\
    (runtime v -> vdomain v' = Frequency) /\ (~ runtime v -> vdomain v' = Time).
Proof.
  intros A HN F Hli r addr s sched b v c Hr Ha Hf Hv Hl Hd Ht Hb.
  destruct (ifft_any Hli r addr s sched b v c Hr Ha Hf Hv Hl Hd Ht Hb) as (v' & b' & X & ? & ? & ? & _ & ? & ? & _). by exists v', b', X.
Qed.
Print Assumptions C32_ifft_shifted.
Theorem C32_ifft_real : forall {A} `{Num A} `{F : Fft A}, (forall c, length (fft_inverse c) = length c) -> forall b (v : dvec A) l,
  reals v l -> l <> [] -> vdomain v = Frequency -> typed v -> lends b v (2 * length l) -> spare b (2 * fft_inplace_scratch_len (length l)) ->
  exists v' b', plain_ifft b v = Done (v', b') /\ cplx v' (fft_inverse (map (fun x => (x, n0)) l)) /\
    (runtime v -> vdomain v' = Frequency) /\ (~ runtime v -> vdomain v' = Time).
Proof. exact @plain_ifft_any_real. Qed.
Print Assumptions C32_ifft_real.

(** [plain_sifft]: [c'] is the conjugate symmetric spectrum *)
Theorem C32_sifft : forall {A} `{Num A} `{Rem A} `{F : Fft A}, (forall c, length (fft_inverse c) = length c) -> forall s sched b (v : dvec A) c x,
  cplx v c -> number_space v = NComplex -> domain v = DFreq -> c !! 0 = Some x -> nltb tolerance (fabs (snd x)) = false ->
  lends b v (2 * (2 * length c - 1)) -> spare b (2 * fft_inplace_scratch_len (2 * length c - 1)) ->
  exists v' b' c', plain_sifft s sched b v = Done (v', b', Ok tt) /\ conj_mirrored c c' /\ reals v' (map fst (fft_inverse c')) /\
    number_space v' = NReal /\ domain v' = DTime.
Proof.
  intros A HN HR F Hli s sched b v c x Hv Hn Hd Hx Hs Hb Hb2. destruct (plain_sifft_static Hli s sched b v c x Hv Hn Hd Hx Hs Hb Hb2) as (v' & b' & ? & ? & ? & ?).
  eexists v', b', _. split_and!; try done. apply mirrored_app. by intros ->.
Qed.
Print Assumptions C32_sifft.
(** ... but a vector which keeps this at run time says that it is complex and in the frequency domain: its 2 n - 1 real numbers are read as complex
    numbers. *)
Theorem C32_sifft_runtime_refuted : forall {A} `{Num A} `{Rem A} `{F : Fft A}, (forall c, length (fft_inverse c) = length c) -> forall s sched b (v : dvec A) c x,
  cplx v c -> runtime v -> vdomain v = Frequency -> c !! 0 = Some x -> nltb tolerance (fabs (snd x)) = false ->
  lends b v (2 * (2 * length c - 1)) -> spare b (2 * fft_inplace_scratch_len (2 * length c - 1)) ->
  exists v' b' c', plain_sifft s sched b v = Done (v', b', Ok tt) /\ conj_mirrored c c' /\ vdata v' = Done (map fst (fft_inverse c')) /\
    is_complex v' = true /\ vdomain v' = Frequency /\ Nat.odd (len v') = true.
Proof.
  intros A HN HR F Hli s sched b v c x Hv Hr Hd Hx Hs Hb Hb2. destruct (plain_sifft_any Hli s sched b v c x Hv Hd Hx Hs Hb Hb2) as (v' & b' & ? & Hv' & _ & K).
  destruct (K Hr) as [K1 K2]. assert (Hm : conj_mirrored c (c ++ rev (map conj1 (tail c)))) by (apply mirrored_app; by intros ->).
  eexists v', b', _. split_and!; try done.
  - unfold is_complex. by rewrite K1.
  - unfold vdomain. by rewrite K2.
  - apply vdata_split in Hv'. destruct Hv' as (rest & He & Hn). unfold len. rewrite Hn, map_length, Hli, (proj1 Hm).
    destruct c as [|y c]; [done|]. cbn [length]. apply Nat.odd_spec. exists (length c). lia.
Qed.
Print Assumptions C32_sifft_runtime_refuted.

(** The wrong domain or number space *)
Theorem C32_wrong_fft : forall {A} `{Num A} `{F : Fft A} b (v : dvec A), vdomain v <> Time -> typed v ->
  (exists v', plain_fft b v = Done (v', b) /\ poisoned v') /\ (exists v', vfft b v = Done (v', b) /\ poisoned v').
Proof.
  intros A HN F b v Hd Ht. split; [destruct (plain_fft_wrong b v Hd Ht) as (v' & ? & ? & _) | destruct (fft_wrong b v Hd Ht) as (v' & ? & ? & _)]; by exists v'.
Qed.
Print Assumptions C32_wrong_fft.
Theorem C32_wrong_ifft : forall {A} `{Num A} `{F : Fft A} r addr s sched b (v : dvec A), vdomain v <> Frequency -> typed v ->
  (exists v', plain_ifft b v = Done (v', b) /\ poisoned v') /\
  (reg_ok r -> elem_aligned r addr -> simd_fits r addr (len v) -> wf v -> points v <> 1 -> exists v', vifft r addr s sched b v = Done (v', b) /\ poisoned v').
Proof.
  intros A HN F r addr s sched b v Hd Ht. split; [destruct (plain_ifft_wrong b v Hd Ht) as (v' & ? & ? & _); by exists v'|].
  intros Hr Ha Hf Hw Hp. destruct (ifft_wrong r addr s sched b v Hr Ha Hf Hw Hp Hd Ht) as (v' & ? & ? & _). by exists v'.
Qed.
Print Assumptions C32_wrong_ifft.
Theorem C32_wrong_sfft : forall {A} `{Num A} `{F : Fft A} b (v : dvec A), vdomain v <> Time \/ is_complex v = true -> typed v ->
  (exists v', plain_sfft b v = Done (v', b, Err InputMustBeInTimeDomain) /\ poisoned v') /\
  (exists v', sfft b v = Done (v', b, Err InputMustBeInTimeDomain) /\ poisoned v').
Proof.
  intros A HN F b v Hd Ht.
  split; [destruct (symmetric_fft_wrong (fun v => Done v) plain_fft b v Hd Ht) as (v' & ? & ? & _) | destruct (symmetric_fft_wrong (fun v => Done v) vfft b v Hd Ht) as (v' & ? & ? & _)]; by exists v'.
Qed.
Print Assumptions C32_wrong_sfft.
Theorem C32_wrong_sifft : forall {A} `{Num A} `{Rem A} `{F : Fft A} s sched b (v : dvec A), vdomain v <> Frequency \/ is_complex v = false ->
  exists v', plain_sifft s sched b v = Done (v', b, Err InputMustBeInFrequencyDomain) /\ poisoned v'.
Proof. exact @plain_sifft_wrong. Qed.
Print Assumptions C32_wrong_sifft.

Example C32_example : exists v' b', plain_fft (F := Zfft) (SingleBuffer []) (ex_vec NReal DTime [1; 2; 3]%Z) = Done (v', b') /\ cplx v' [(3, 0); (2, 0); (1, 0)]%Z /\
  number_space v' = NComplex /\ domain v' = DFreq.
Proof. eexists _, _. split_and!; try (vm_compute; done). Qed.
Example C32_example_shifted : exists v' b', vfft (F := Zfft) (SingleBuffer []) (ex_vec (NDyn true) (DDyn Time) [1; 2; 3; 4; 5; 6]%Z) = Done (v', b') /\
  cplx v' [(1, 2); (5, 6); (3, 4)]%Z /\ domain v' = DDyn Frequency.
Proof. eexists _, _. split_and!; try (vm_compute; done). Qed.
Example C32_example_ifft : exists v' b', plain_ifft (F := Zfft) (SingleBuffer []) (ex_vec NComplex DFreq [1; 2; 3; 4]%Z) = Done (v', b') /\
  cplx v' [(3, 4); (1, 2)]%Z /\ domain v' = DTime.
Proof. eexists _, _. split_and!; try (vm_compute; done). Qed.
Example C32_example_ifft_runtime : exists v' b', plain_ifft (F := Zfft) (SingleBuffer []) (ex_vec (NDyn true) (DDyn Frequency) [1; 2; 3; 4]%Z) = Done (v', b') /\
  cplx v' [(3, 4); (1, 2)]%Z /\ domain v' = DDyn Frequency.
Proof. eexists _, _. split_and!; try (vm_compute; done). Qed.
Local Existing Instance Rrem.
Example C32_example_sifft : exists v' b' c', plain_sifft (F := exact_fft) one_core [] (SingleBuffer []) (ex_vec NComplex DFreq [1; 0; 2; 3]%R) = Done (v', b', Ok tt) /\
  conj_mirrored [(1, 0); (2, 3)]%R c' /\ reals v' (map fst (dft 1 c')).
Proof.
  destruct (C32_sifft (F := exact_fft) ex_len one_core [] (SingleBuffer []) (ex_vec NComplex DFreq [1; 0; 2; 3]%R) [(1, 0); (2, 3)]%R (1, 0)%R)
    as (v' & b' & c' & ? & ? & ? & _); try done.
  - cbn [snd nltb fabs Rnum Rrem]. rewrite Rabs_R0. apply Rltb_false. pose proof tolerance_pos. lra.
  - by exists v', b', c'.
Qed.
Example C32_example_sifft_runtime : exists v' b', plain_sifft (F := exact_fft) one_core [] (SingleBuffer []) (ex_vec (NDyn true) (DDyn Frequency) [1; 0; 2; 3]%R) = Done (v', b', Ok tt) /\
  is_complex v' = true /\ vdomain v' = Frequency /\ Nat.odd (len v') = true.
Proof.
  destruct (C32_sifft_runtime_refuted (F := exact_fft) ex_len one_core [] (SingleBuffer []) (ex_vec (NDyn true) (DDyn Frequency) [1; 0; 2; 3]%R) [(1, 0); (2, 3)]%R (1, 0)%R)
    as (v' & b' & c' & ? & ? & ? & ? & ? & ?); try done.
  - by exists true, Frequency.
  - cbn [snd nltb fabs Rnum Rrem]. rewrite Rabs_R0. apply Rltb_false. pose proof tolerance_pos. lra.
  - by exists v', b'.
Qed.
Example C32_example_wrong : exists v', vfft (F := Zfft) NoBuffer (ex_vec NReal DFreq [1; 2; 3]%Z) = Done (v', NoBuffer) /\ len v' = 0.
Proof. eexists. split_and!; try (vm_compute; done). Qed.

(** * C33 Symmetric transforms *)

(** For the types which fix the number space at compile time *)
Theorem C33_half_spectrum : forall `{F : Fft R}, computes_dft -> forall b (v : dvec R) l,
  reals v l -> number_space v = NReal -> domain v = DTime -> Nat.odd (length l) = true ->
  lends b v (4 * length l) -> spare b (2 * fft_inplace_scratch_len (2 * length l)) ->
  let half := take ((length l + 1) / 2) (dft (-1) (map (fun x => (x, 0%R)) l)) in
  (exists v' b', plain_sfft b v = Done (v', b', Ok tt) /\ cplx v' half /\ number_space v' = NComplex /\ domain v' = DFreq) /\
  (exists v' b', sfft b v = Done (v', b', Ok tt) /\ cplx v' half /\ number_space v' = NComplex /\ domain v' = DFreq).
Proof.
  intros F HF b v l Hv Hn Hd Ho Hb Hb2 half. split.
  - destruct (plain_sfft_half HF b v l Hv Hn Hd Ho Hb Hb2) as (v' & b' & ? & ? & ? & ? & _). by exists v', b'.
  - destruct (sfft_half HF b v l Hv Hn Hd Ho Hb Hb2) as (v' & b' & ? & ? & ? & ? & _). by exists v', b'.
Qed.
Print Assumptions C33_half_spectrum.
Theorem C33_mirror : forall `{F : Fft R}, computes_dft -> forall b (v : dvec R) l b2,
  reals v l -> number_space v = NReal -> domain v = DTime -> Nat.odd (length l) = true ->
  lends b v (4 * length l) -> spare b (2 * fft_inplace_scratch_len (2 * length l)) ->
  exists v' b', plain_sfft b v = Done (v', b', Ok tt) /\ (lends b2 v' (2 * length l) ->
    exists v2 b2', mirror b2 v' = Done (v2, b2') /\ cplx v2 (dft (-1) (map (fun x => (x, 0%R)) l))).
Proof. exact @sfft_mirror. Qed.
Print Assumptions C33_mirror.
Theorem C33_even_rejected : forall {A} `{Num A} `{F : Fft A} b (v : dvec A), vdomain v = Time -> is_complex v = false -> Nat.even (len v) = true -> typed v ->
  (exists v', plain_sfft b v = Done (v', b, Err InputMustHaveAnOddLength) /\ poisoned v') /\
  (exists v', sfft b v = Done (v', b, Err InputMustHaveAnOddLength) /\ poisoned v').
Proof.
  intros A HN F b v Hd Hc He Ht.
  split; [destruct (symmetric_fft_even (fun v => Done v) plain_fft b v Hd Hc He Ht) as (v' & ? & ? & _) | destruct (symmetric_fft_even (fun v => Done v) vfft b v Hd Hc He Ht) as (v' & ? & ? & _)]; by exists v'.
Qed.
Print Assumptions C33_even_rejected.
(** A vector which keeps the number space at run time: the transform has only n points then, while the code keeps a quarter of 2 n. One half of the
    lengths panics, for the others the spectrum is cut to (n + 1) / 4 points. *)
Theorem C33_runtime_refuted : forall {A} `{Num A} `{F : Fft A}, (forall c, length (fft_forward c) = length c) -> forall b (v : dvec A) l,
  reals v l -> runtime v -> vdomain v = Time -> Nat.odd (length l) = true -> lends b v (2 * length l) -> spare b (2 * fft_inplace_scratch_len (length l)) ->
  (length l mod 4 = 1 -> plain_sfft b v = Panicked) /\
  (length l mod 4 = 3 -> exists v' b', plain_sfft b v = Done (v', b', Ok tt) /\
     cplx v' (take ((length l + 1) / 4) (fft_forward (map (fun x => (x, n0)) l)))).
Proof. exact @plain_sfft_gen. Qed.
Print Assumptions C33_runtime_refuted.

Example C33_example : exists v' b', plain_sfft (F := exact_fft) (SingleBuffer []) (ex_vec NReal DTime [1; 2; 3]%R) = Done (v', b', Ok tt) /\
  cplx v' (take 2 (dft (-1) [(1, 0); (2, 0); (3, 0)]%R)).
Proof.
  destruct (C33_half_spectrum (F := exact_fft) exact_fft_computes (SingleBuffer []) (ex_vec NReal DTime [1; 2; 3]%R) [1; 2; 3]%R) as [(v' & b' & ? & ? & _) _];
    [done | done | done | done | done | done |].
  exists v', b'. split; assumption.
Qed.
Example C33_example_mirror : exists v' b' v2 b2', plain_sfft (F := exact_fft) (SingleBuffer []) (ex_vec NReal DTime [1; 2; 3]%R) = Done (v', b', Ok tt) /\
  mirror (SingleBuffer []) v' = Done (v2, b2') /\ cplx v2 (dft (-1) [(1, 0); (2, 0); (3, 0)]%R).
Proof.
  destruct (C33_mirror (F := exact_fft) exact_fft_computes (SingleBuffer []) (ex_vec NReal DTime [1; 2; 3]%R) [1; 2; 3]%R (SingleBuffer [])) as (v' & b' & E & K);
    [done | done | done | done | done | done |].
  destruct (K I) as (v2 & b2' & ? & ?). exists v', b', v2, b2'. split_and!; assumption.
Qed.
Example C33_example_even : exists v', plain_sfft (F := Zfft) NoBuffer (ex_vec NReal DTime [1; 2; 3; 4]%Z) = Done (v', NoBuffer, Err InputMustHaveAnOddLength) /\ len v' = 0.
Proof. eexists. split_and!; try (vm_compute; done). Qed.
Example C33_example_runtime : plain_sfft (F := Zfft) (SingleBuffer []) (ex_vec (NDyn false) (DDyn Time) [1; 2; 3; 4; 5]%Z) = Panicked /\
  exists v' b', plain_sfft (F := Zfft) (SingleBuffer []) (ex_vec (NDyn false) (DDyn Time) [1; 2; 3]%Z) = Done (v', b', Ok tt) /\ cplx v' [(3, 0)]%Z.
Proof. split; [vm_compute; done|]. eexists _, _. split_and!; try (vm_compute; done). Qed.

(** * C34 mirror *)
Theorem C34_mirror : forall {A} `{Num A} b (v : dvec A) c, cplx v c -> c <> [] -> lends b v (2 * (2 * length c - 1)) ->
  exists v' b' c', mirror b v = Done (v', b') /\ cplx v' c' /\ conj_mirrored c c' /\ same_meta v v'.
Proof. exact @mirror_spec. Qed.
Print Assumptions C34_mirror.
(** [conj_mirrored] says everything about the result. *)
Theorem C34_unique : forall {A} `{Num A} (c c1 c2 : list (A * A)), c <> [] -> conj_mirrored c c1 -> conj_mirrored c c2 -> c1 = c2.
Proof.
  intros A HN c c1 c2 Hc (L1 & F1 & B1) (L2 & F2 & B2). apply list_eq. intros i. destruct (decide (i < length c)) as [Hi|Hi].
  - by rewrite F1, F2.
  - destruct (decide (i < 2 * length c - 1)) as [Hj|Hj].
    + destruct (lookup_lt_is_Some_2 c (2 * length c - 1 - i) ltac:(lia)) as [x Hx].
      pose proof (B1 (2 * length c - 1 - i) x ltac:(lia) Hx) as E1. pose proof (B2 (2 * length c - 1 - i) x ltac:(lia) Hx) as E2.
      replace (2 * length c - 1 - (2 * length c - 1 - i)) with i in E1, E2 by lia. congruence.
    + rewrite !lookup_ge_None_2 by lia. done.
Qed.
Print Assumptions C34_unique.
(** What is missing: an empty vector panics. *)
Theorem C34_empty_refuted : forall {A} `{Num A} b (v : dvec A), cplx v [] -> mirror b v = Panicked.
Proof. exact @mirror_empty. Qed.
Print Assumptions C34_empty_refuted.

Example C34_example : exists v' b', mirror (SingleBuffer []) (ex_vec NComplex DFreq [1; 2; 3; 4; 5; 6]%Z) = Done (v', b') /\
  cplx v' [(1, 2); (3, 4); (5, 6); (5, -6); (3, -4)]%Z.
Proof. eexists _, _. split_and!; try (vm_compute; done). Qed.
Example C34_example_empty : mirror (SingleBuffer []) (ex_vec NComplex DFreq (@nil Z)) = Panicked.
Proof. vm_compute. done. Qed.

(** * C35 Multiplication of spectra, correlation *)
Theorem C35_spectra_product : forall `{F : Fft R}, computes_dft -> forall r addr s sched sched' b (v o : dvec R) x y,
  reg_ok r -> elem_aligned r addr -> address_ok r addr v -> whole_points v ->
  cplx v x -> cplx o y -> length x = length y -> 2 <= length x -> vdomain v = Time -> vdomain o = Time -> typed v -> typed o ->
  delta v = delta o -> delta v <> 0%R -> spare b (2 * fft_inplace_scratch_len (length x)) ->
  exists v1 b1 o1 b2 v2 v3 b3, vfft b v = Done (v1, b1) /\ vfft b1 o = Done (o1, b2) /\ vmul r addr s sched v1 o1 = Done (v2, Ok tt) /\
    vifft r addr s sched' b2 v2 = Done (v3, b3) /\ cplx v3 (circular_convolution (0, 0)%R complex_sum complex_product 1 x y) /\ same_rest v v3.
Proof. exact @spectra_product. Qed.
Print Assumptions C35_spectra_product.
Theorem C35_correlate_padded : forall `{F : Fft R}, computes_dft -> forall r addr addr' s sched1 sched2 sched3 b (v o : dvec R) x y,
  aligned_all r addr -> aligned_all r addr' ->
  cplx v x -> cplx o y -> length x = length y -> 2 <= length x -> vdomain v = Time -> vdomain o = Time -> typed o ->
  lends b o (2 * (2 * length y - 1)) -> lends b v (2 * (2 * length y - 1)) -> spare b (2 * fft_inplace_scratch_len (2 * length y - 1)) ->
  exists o' b1 v' b2, prepare_argument_padded r addr' s sched1 b o = Done (o', b1) /\
    correlate r addr s sched2 sched3 b1 v o' = Done (v', b2, Ok tt) /\ cplx v' (cross_correlation x y) /\ same_meta v v'.
Proof. exact @correlate_padded. Qed.
Print Assumptions C35_correlate_padded.
(** An argument which was prepared without padding has as many points as the vector, and [correlate] rejects it: the circular correlation can not be
    computed. *)
Theorem C35_same_length_refuted : forall {A} `{Num A} `{F : Fft A} r addr s sched sched' b (v o : dvec A) x Y,
  cplx v x -> cplx o Y -> length Y <= length x -> vdomain v = Time -> vdomain o = Frequency ->
  correlate r addr s sched sched' b v o = Done (v, b, Err InvalidArgumentLength).
Proof. exact @correlate_same_length. Qed.
Print Assumptions C35_same_length_refuted.
Theorem C35_single_refuted : forall {A} `{Num A} `{F : Fft A} r addr s sched b (o : dvec A) y, cplx o y -> length y <= 1 ->
  prepare_argument_padded r addr s sched b o = Panicked.
Proof. exact @prepare_padded_single. Qed.
Print Assumptions C35_single_refuted.
Theorem C35_wrong_space : forall {A} `{Num A} `{F : Fft A} r addr s sched sched' b (v o : dvec A),
  (vdomain v <> Time \/ is_complex v = false \/ vdomain o <> Frequency \/ is_complex o = false) ->
  exists v', correlate r addr s sched sched' b v o = Done (v', b, Err InputMustBeInTimeDomain) /\ poisoned v'.
Proof. exact @correlate_wrong. Qed.
Print Assumptions C35_wrong_space.

Example C35_example_product : let v := ex_vec NComplex DTime [1; 2; 3; 4]%R in let o := ex_vec NComplex DTime [5; 6; 7; 8]%R in
  exists v1 b1 o1 b2 v2 v3 b3, vfft (F := exact_fft) (SingleBuffer []) v = Done (v1, b1) /\ vfft (F := exact_fft) b1 o = Done (o1, b2) /\
    vmul f64x2 48 one_core [] v1 o1 = Done (v2, Ok tt) /\ vifft (F := exact_fft) f64x2 48 one_core [] b2 v2 = Done (v3, b3) /\
    cplx v3 (circular_convolution (0, 0)%R complex_sum complex_product 1 [(1, 2); (3, 4)]%R [(5, 6); (7, 8)]%R).
Proof.
  intros v o. pose proof aligned_ex as (? & ? & ? & ?).
  destruct (C35_spectra_product (F := exact_fft) exact_fft_computes f64x2 48 one_core [] [] (SingleBuffer []) v o [(1, 2); (3, 4)]%R [(5, 6); (7, 8)]%R)
    as (v1 & b1 & o1 & b2 & v2 & v3 & b3 & ? & ? & ? & ? & ? & _); [done | done | | done | done | done | done | cbn; lia | done | done | done | done | done | cbn; lra | done |].
  - left. split; [done|]. by intros _.
  - exists v1, b1, o1, b2, v2, v3, b3. split_and!; assumption.
Qed.
Example C35_example_correlate : let v := ex_vec NComplex DTime [1; 2; 3; 4]%R in let o := ex_vec NComplex DTime [5; 6; 7; 8]%R in
  exists o' b1 v' b2, prepare_argument_padded (F := exact_fft) f64x2 48 one_core [] (SingleBuffer []) o = Done (o', b1) /\
    correlate (F := exact_fft) f64x2 48 one_core [] [] b1 v o' = Done (v', b2, Ok tt) /\ cplx v' (cross_correlation [(1, 2); (3, 4)]%R [(5, 6); (7, 8)]%R).
Proof.
  intros v o. pose proof aligned_ex as Ha.
  destruct (C35_correlate_padded (F := exact_fft) exact_fft_computes f64x2 48 48 one_core [] [] [] (SingleBuffer []) v o [(1, 2); (3, 4)]%R [(5, 6); (7, 8)]%R Ha Ha
    ltac:(done) ltac:(done) eq_refl ltac:(cbn; lia) eq_refl eq_refl I I I I) as (o' & b1 & v' & b2 & ? & ? & ? & _).
  exists o', b1, v', b2. split_and!; assumption.
Qed.
Example C35_example_same : correlate (F := Zfft) f64x2 48 one_core [] [] NoBuffer (ex_vec NComplex DTime [1; 2; 3; 4]%Z) (ex_vec NComplex DFreq [5; 6; 7; 8]%Z) =
  Done (ex_vec NComplex DTime [1; 2; 3; 4]%Z, NoBuffer, Err InvalidArgumentLength).
Proof. vm_compute. done. Qed.
Example C35_example_single : prepare_argument_padded (F := Zfft) f64x2 48 one_core [] (SingleBuffer []) (ex_vec NComplex DTime [1; 2]%Z) = Panicked.
Proof. vm_compute. done. Qed.
Example C35_example_wrong : exists v', correlate (F := Zfft) f64x2 48 one_core [] [] NoBuffer (ex_vec NComplex DTime [1; 2; 3; 4]%Z) (ex_vec NComplex DTime [5; 6; 7; 8]%Z) =
  Done (v', NoBuffer, Err InputMustBeInTimeDomain) /\ len v' = 0.
Proof. eexists. split_and!; vm_compute; done. Qed.

(** * C49 Symmetric transforms back and forth *)
Theorem C49_plain : forall `{F : Fft R}, computes_dft -> forall s sched b b2 (v : dvec R) l,
  reals v l -> number_space v = NReal -> domain v = DTime -> Nat.odd (length l) = true ->
  lends b v (4 * length l) -> spare b (2 * fft_inplace_scratch_len (2 * length l)) ->
  exists v1 b1, plain_sfft b v = Done (v1, b1, Ok tt) /\
    (lends b2 v1 (2 * length l) -> spare b2 (2 * fft_inplace_scratch_len (length l)) ->
     exists v2 b3, plain_sifft s sched b2 v1 = Done (v2, b3, Ok tt) /\ reals v2 (map (fun x => (INR (length l) * x)%R) l) /\ vdomain v2 = Time).
Proof. exact @plain_sfft_sifft. Qed.
Print Assumptions C49_plain.
(** [sifft] first divides by the number p of points of the half spectrum (instead of the number of points of the result) and rotates the half spectrum as
    if it were a whole one, and then does the same as [plain_sifft]. If the rotation brings a point which is not real to the front the call fails. *)
Theorem C49_sifft : forall `{F : Fft R}, computes_dft -> forall r addr s sched sched' b (v : dvec R) l b2, aligned_all r addr ->
  reals v l -> number_space v = NReal -> domain v = DTime -> Nat.odd (length l) = true -> length l <> 1 ->
  lends b v (4 * length l) -> spare b (2 * fft_inplace_scratch_len (2 * length l)) ->
  let p := (length l + 1) / 2 in
  exists v1 b1 half, sfft b v = Done (v1, b1, Ok tt) /\
    rotated_by (p - p / 2) (map (fun x => complex_product x (1 / INR p, 0)%R) (take p (dft (-1) (map (fun x => (x, 0%R)) l)))) half /\
    forall x, half !! 0 = Some x ->
    (tolerance < Rabs (snd x) -> exists v2, sifft r addr s sched sched' b2 v1 = Done (v2, b2, Err InputMustBeConjSymmetric) /\ poisoned v2)%R /\
    ((Rabs (snd x) <= tolerance)%R -> lends b2 v1 (2 * length l) -> spare b2 (2 * fft_inplace_scratch_len (length l)) ->
     exists v2 b3 full, sifft r addr s sched sched' b2 v1 = Done (v2, b3, Ok tt) /\ conj_mirrored half full /\ reals v2 (map fst (dft 1 full))).
Proof. exact @sifft_of_sfft. Qed.
Print Assumptions C49_sifft.
Theorem C49_sifft_single_refuted : forall `{F : Fft R}, computes_dft -> forall r addr s sched sched' b (v : dvec R) x b2, aligned_all r addr ->
  reals v [x] -> number_space v = NReal -> domain v = DTime -> lends b v 4 -> spare b (2 * fft_inplace_scratch_len 2) ->
  exists v1 b1, sfft b v = Done (v1, b1, Ok tt) /\ sifft r addr s sched sched' b2 v1 = Panicked.
Proof. exact @sifft_of_sfft_single. Qed.
Print Assumptions C49_sifft_single_refuted.
(** So it does not even restore a single impulse: it divides by the number of points of the half spectrum instead of the number of points of the result: sifft (sfft [1; 0; 0]) begins with 3/2. *)
Theorem C49_sifft_refuted : forall `{F : Fft R}, computes_dft -> forall r addr s sched sched' b (v : dvec R) b2, aligned_all r addr ->
  reals v [1; 0; 0]%R -> number_space v = NReal -> domain v = DTime -> lends b v 12 -> spare b (2 * fft_inplace_scratch_len 6) ->
  exists v1 b1, sfft b v = Done (v1, b1, Ok tt) /\
    (lends b2 v1 6 -> spare b2 (2 * fft_inplace_scratch_len 3) ->
     exists v2 b3, sifft r addr s sched sched' b2 v1 = Done (v2, b3, Ok tt) /\ exists l, reals v2 l /\ l !! 0 = Some (3 / 2)%R).
Proof. exact @sifft_scale_wrong. Qed.
Print Assumptions C49_sifft_refuted.
Example C49_example : exists v1 b1 v2 b2, plain_sfft (F := exact_fft) (SingleBuffer []) (ex_vec NReal DTime [1; 2; 3]%R) = Done (v1, b1, Ok tt) /\
  plain_sifft (F := exact_fft) one_core [] (SingleBuffer []) v1 = Done (v2, b2, Ok tt) /\ reals v2 [INR 3 * 1; INR 3 * 2; INR 3 * 3]%R.
Proof.
  destruct (C49_plain (F := exact_fft) exact_fft_computes one_core [] (SingleBuffer []) (SingleBuffer []) (ex_vec NReal DTime [1; 2; 3]%R) [1; 2; 3]%R) as (v1 & b1 & E & K);
    [done | done | done | done | done | done |].
  destruct (K I I) as (v2 & b2 & ? & ? & _). exists v1, b1, v2, b2. split_and!; assumption.
Qed.
Example C49_example_single : exists v1 b1, sfft (F := exact_fft) (SingleBuffer []) (ex_vec NReal DTime [5]%R) = Done (v1, b1, Ok tt) /\
  sifft (F := exact_fft) f64x2 48 one_core [] [] (SingleBuffer []) v1 = Panicked.
Proof. apply (C49_sifft_single_refuted (F := exact_fft) exact_fft_computes) with (x := 5%R); [exact aligned_ex | done | done | done | done | done]. Qed.
Example C49_example_wrong : exists v1 b1 v2 b2 l, sfft (F := exact_fft) (SingleBuffer []) (ex_vec NReal DTime [1; 0; 0]%R) = Done (v1, b1, Ok tt) /\
  sifft (F := exact_fft) f64x2 48 one_core [] [] (SingleBuffer []) v1 = Done (v2, b2, Ok tt) /\ reals v2 l /\ l !! 0 = Some (3 / 2)%R.
Proof.
  destruct (C49_sifft_refuted (F := exact_fft) exact_fft_computes f64x2 48 one_core [] [] (SingleBuffer []) (ex_vec NReal DTime [1; 0; 0]%R) (SingleBuffer [])) as (v1 & b1 & E & K);
    [exact aligned_ex | done | done | done | done | done |].
  destruct (K I I) as (v2 & b2 & ? & l & ? & ?). exists v1, b1, v2, b2, l. split_and!; assumption.
Qed.
