(** C23, C24, C25, C47, C48: conversions between real and complex vectors, functions applied to each point, wrapping. *)
From Verif Require Import NumsFlt Proof_Complex Proof_ComplexOps Proof_ComplexSet Proof_ComplexMath Proof_ComplexRound Proof_Real NumsR.
From Verif Require Import Spec_Complex Spec_Real Model_Chunk.
Local Open Scope nat_scope.

Definition ex_vec {A} `{Num A} (ns : nspace) (l : list A) : dvec A := DVec (Storage KVec (length l) l) n1 DTime ns (length l).
Definition ex_boxed {A} `{Num A} (ns : nspace) (l : list A) : dvec A := DVec (Storage KBox (length l) l) n1 DTime ns (length l).
Definition ex_room {A} `{Num A} (ns : nspace) (l spare : list A) : dvec A := DVec (Storage KVec (length (l ++ spare)) (l ++ spare)) n1 DTime ns (length l).
Definition ex_set : settings := with_thresholds 4 2 3 2 3.

(** * C23 Getting and setting parts *)

Theorem C23_get_real_imag : forall {A} `{Num A} (v re im : dvec A) c, cplx v c -> takes re (length c) -> takes im (length c) ->
  exists re' im', get_real_imag v re im = Done (re', im') /\ reals re' (map fst c) /\ reals im' (map snd c) /\ same_meta re re' /\ same_meta im im'.
Proof. exact @get_real_imag_spec. Qed.
Print Assumptions C23_get_real_imag.
Theorem C23_get_mag_phase : forall {A} `{Num A} `{Flt A} (v mag ph : dvec A) c, cplx v c -> takes mag (length c) -> takes ph (length c) ->
  exists mag' ph', get_mag_phase v mag ph = Done (mag', ph') /\ reals mag' (map (fun x => fhypot (fst x) (snd x)) c) /\
    reals ph' (map (fun x => fatan2 (snd x) (fst x)) c) /\ same_meta mag mag' /\ same_meta ph ph'.
Proof. exact @get_mag_phase_spec. Qed.
Print Assumptions C23_get_mag_phase.
(** ... and get followed by set is the identity *)
Theorem C23_get_then_set : forall {A} `{Num A} (v re im : dvec A) c, cplx v c -> s_kind (data v) = KVec -> takes re (length c) -> takes im (length c) ->
  exists re' im' v', get_real_imag v re im = Done (re', im') /\ set_real_imag v re' im' = Done (v', Ok tt) /\ cplx v' c /\ same_meta v v'.
Proof. exact @get_set_real_imag. Qed.
Print Assumptions C23_get_then_set.
Theorem C23_get_then_set_mag_phase : forall {A} `{Num A} `{Flt A} (v mag ph : dvec A) c, (forall x y, fpolar (fhypot x y) (fatan2 y x) = (x, y)) ->
  cplx v c -> s_kind (data v) = KVec -> takes mag (length c) -> takes ph (length c) ->
  exists mag' ph' v', get_mag_phase v mag ph = Done (mag', ph') /\ set_mag_phase v mag' ph' = Done (v', Ok tt) /\ cplx v' c /\ same_meta v v'.
Proof. exact @get_set_mag_phase. Qed.
Print Assumptions C23_get_then_set_mag_phase.
(** the law of polar coordinates holds for the real numbers *)
Theorem C23_get_then_set_mag_phase_exact : forall (v mag ph : dvec R) c,
  cplx v c -> s_kind (data v) = KVec -> takes mag (length c) -> takes ph (length c) ->
  exists mag' ph' v', get_mag_phase v mag ph = Done (mag', ph') /\ set_mag_phase v mag' ph' = Done (v', Ok tt) /\ cplx v' c /\ same_meta v v'.
Proof. intros v mag ph c. apply get_set_mag_phase. exact R_polar_of_arg. Qed.
Print Assumptions C23_get_then_set_mag_phase_exact.
Theorem C23_set_then_get : forall {A} `{Num A} (v re im : dvec A) lr li,
  is_complex v = true -> s_kind (data v) = KVec -> reals re lr -> reals im li -> length lr = length li ->
  takes re (length lr) -> takes im (length lr) ->
  exists v' re' im', set_real_imag v re im = Done (v', Ok tt) /\ cplx v' (zip lr li) /\ same_meta v v' /\
    get_real_imag v' re im = Done (re', im') /\ reals re' lr /\ reals im' li.
Proof. exact @set_get_real_imag. Qed.
Print Assumptions C23_set_then_get.
Theorem C23_set_mag_phase : forall {A} `{Num A} `{Flt A} (v mag ph : dvec A) lm lp,
  s_kind (data v) = KVec -> vdata mag = Done lm -> vdata ph = Done lp -> length lm = length lp ->
  exists v', set_mag_phase v mag ph = Done (v', Ok tt) /\ vdata v' = Done (complex_to_array (zip_with fpolar lm lp)) /\ same_meta v v' /\
    len v' = 2 * length lm /\ alloc_len v' = len v'.
Proof. exact @set_mag_phase_spec. Qed.
Print Assumptions C23_set_mag_phase.
Theorem C23_set_rejects : forall {A} `{Num A} `{Flt A} (v a b : dvec A), len a <> len b ->
  set_real_imag v a b = Done (v, Err InvalidArgumentLength) /\ set_mag_phase v a b = Done (v, Err InvalidArgumentLength).
Proof. exact @set_mismatch. Qed.
Print Assumptions C23_set_rejects.

(** [get_real], [get_imag] and [get_phase] give what [to_real], [to_imag] and [phase] give. The target must have room for as many elements as the
    *source*, see the refutation below. *)
Theorem C23_getters : forall {A} `{Num A} `{Flt A} s sched (v dst : dvec A) c, cplx v c -> typed v -> takes dst (len v) ->
  (exists d v', get_real s sched v dst = Done d /\ got v (map fst c) dst d /\ to_real v = Done v' /\ vdata v' = vdata d) /\
  (exists d v', get_imag s sched v dst = Done d /\ got v (map snd c) dst d /\ to_imag v = Done v' /\ vdata v' = vdata d) /\
  (exists d v', get_phase s sched v dst = Done d /\ got v (map (fun x => fatan2 (snd x) (fst x)) c) dst d /\ phase v = Done v' /\ vdata v' = vdata d).
Proof.
  intros A HA HF s sched v dst c Hv Ht Hd.
  assert (Hop : forall op : A * A -> A, exists d v', get_into (pure_into_target op s sched) v dst = Done d /\ got v (map op c) dst d /\
    complex_to_real op v = Done v' /\ vdata v' = vdata d).
  { intros op. destruct (get_into_spec op s sched v dst c Hv Hd) as (d & E & G). destruct (complex_to_real_spec op v c Hv Ht) as (v' & E' & [_ G'] & _).
    exists d, v'. split_and!; try done. destruct G as ([_ G] & _). congruence. }
  split_and!; apply Hop.
Qed.
Print Assumptions C23_getters.
(** [get_magnitude] and [get_magnitude_squared] need in addition that the source has no spare storage *)
Theorem C23_get_magnitude : forall {A} `{Num A} `{Flt A}, (forall a b, fhypot a b = fsqrt (a * a + b * b)%num) ->
  forall r addr s sched (v dst : dvec A) c, reg_ok r -> elem_aligned r addr -> cplx v c -> address_ok r addr v -> alloc_len v = len v -> takes dst (len v) ->
  (exists d, get_magnitude r addr s sched v dst = Done d /\ got v (map (fun x => fhypot (fst x) (snd x)) c) dst d) /\
  (exists d, get_magnitude_squared r addr s sched v dst = Done d /\ got v (map (fun x => (fst x * fst x + snd x * snd x)%num) c) dst d).
Proof.
  intros A HA HF Hl r addr s sched v dst c Hr Ha Hv Hok Hal Ht. split.
  - apply (get_into_simd_spec reg_abs cnorm r addr s sched v dst c); try done. intros b Hb.
    rewrite take_ge by (unfold reg_abs; by rewrite map_length, pairs_of_length, Hb). unfold reg_abs. apply map_ext. intros [x y]. symmetry. apply Hl.
  - apply (get_into_simd_spec reg_abs2 cabs2 r addr s sched v dst c); try done. apply halves_pairs.
Qed.
Print Assumptions C23_get_magnitude.
Theorem C23_getters_mismatch : forall {A} `{Num A} `{Flt A} r addr s sched (v dst : dvec A), is_complex v = false \/ is_complex dst = true ->
  (forall get, get ∈ [get_real s sched; get_imag s sched; get_phase s sched; get_magnitude r addr s sched; get_magnitude_squared r addr s sched] ->
     exists dst', get v dst = Done dst' /\ len dst' = 0 /\ same_meta dst dst') /\
  (forall t2 get, get ∈ [get_real_imag; get_mag_phase] -> exists d1 d2, get v dst t2 = Done (d1, d2) /\ len d1 = 0 /\ len d2 = 0).
Proof.
  intros A HA HF r addr s sched v dst Hm. split.
  - assert (Hb : forall body, exists dst', get_into body v dst = Done dst' /\ len dst' = 0 /\ same_meta dst dst').
    { intros body. destruct (get_into_mismatch body v dst Hm) as (d & E & H1 & H2 & _). by exists d. }
    intros get Hg. repeat (apply elem_of_cons in Hg as [->|Hg]; [apply Hb|]). by apply elem_of_nil in Hg.
  - intros t2. assert (Hb : forall body, exists d1 d2, get_two body v dst t2 = Done (d1, d2) /\ len d1 = 0 /\ len d2 = 0).
    { intros body. destruct (get_two_mismatch body v dst t2) as (d1 & d2 & E & H1 & H2 & _); [destruct Hm; auto|]. by exists d1, d2. }
    intros get Hg. repeat (apply elem_of_cons in Hg as [->|Hg]; [apply Hb|]). by apply elem_of_nil in Hg.
Qed.
Print Assumptions C23_getters_mismatch.
(** A target with room for all points is not enough: [get_real] of 2 points into a fixed storage of 2 numbers panics. *)
Theorem C23_get_real_room_refuted : let v := ex_vec NComplex [1; 2; 3; 4]%Z in let dst := ex_boxed NReal [0; 0]%Z in
  cplx v [(1, 2); (3, 4)]%Z /\ takes dst 2 /\ get_real ex_set [] v dst = Panicked.
Proof. vm_compute. split_and!; try done; lia. Qed.
Print Assumptions C23_get_real_room_refuted.
(** [get_magnitude] panics if the storage of the source has 4 spare elements behind 2 points. *)
Theorem C23_get_magnitude_spare_refuted : let v := ex_room NComplex [3; 4; 6; 8]%Z [0; 0; 0; 0]%Z in let dst := ex_vec NReal []%Z in
  cplx v [(3, 4); (6, 8)]%Z /\ takes dst 4 /\ address_ok f64x2 0 v /\ get_magnitude f64x2 0 ex_set [] v dst = Panicked.
Proof. split_and!; try (vm_compute; done). left; split; vm_compute; done || lia. Qed.
Print Assumptions C23_get_magnitude_spare_refuted.
Example C23_ex : let v := ex_vec NComplex [3; 4; 6; 8]%Z in let dst := ex_vec NReal [7]%Z in
  cplx v [(3, 4); (6, 8)]%Z /\ typed v /\ takes dst (len v) /\ address_ok f32x4 8 v /\ alloc_len v = len v /\
  (exists d, get_magnitude f32x4 8 ex_set [] v dst = Done d /\ reals d [5; 10]%Z) /\
  (exists re im v', get_real_imag v dst dst = Done (re, im) /\ reals re [3; 6]%Z /\ reals im [4; 8]%Z /\ set_real_imag v re im = Done (v', Ok tt) /\ cplx v' [(3, 4); (6, 8)]%Z).
Proof.
  split_and!; try (vm_compute; done).
  - left. split; [done|]. intros; done.
  - eexists. split; [vm_compute; reflexivity|vm_compute; done].
  - do 3 eexists. split; [vm_compute; reflexivity|]. split; [vm_compute; done|]. split; [vm_compute; done|]. split; [vm_compute; reflexivity|vm_compute; done].
Qed.

(** * C24 to_complex and to_real *)

Theorem C24_to_complex : forall {A} `{Num A} (v : dvec A) l, reals v l -> typed v -> wf_storage (data v) -> can_hold (data v) (2 * length l) ->
  exists v', to_complex v = Done (v', Ok tt) /\ cplx v' (map (fun x => (x, n0)) l) /\ converted v v'.
Proof. exact @to_complex_spec. Qed.
Print Assumptions C24_to_complex.
Theorem C24_to_complex_to_real : forall {A} `{Num A} (v : dvec A) l, reals v l -> typed v -> wf_storage (data v) -> can_hold (data v) (2 * length l) ->
  exists v1 v2, to_complex v = Done (v1, Ok tt) /\ cplx v1 (map (fun x => (x, n0)) l) /\ to_real v1 = Done v2 /\ reals v2 l /\ converted v v2.
Proof. exact @to_complex_to_real. Qed.
Print Assumptions C24_to_complex_to_real.
Theorem C24_to_complex_to_imag : forall {A} `{Num A} (v : dvec A) l, reals v l -> typed v -> wf_storage (data v) -> can_hold (data v) (2 * length l) ->
  exists v1 v2, to_complex v = Done (v1, Ok tt) /\ to_imag v1 = Done v2 /\ reals v2 (replicate (length l) n0) /\ converted v v2.
Proof. exact @to_complex_to_imag. Qed.
Print Assumptions C24_to_complex_to_imag.
Theorem C24_to_complex_b : forall {A} `{Num A} (b : buffer A) (v : dvec A) l, reals v l -> l <> [] -> typed v -> lends b v (2 * length l) ->
  exists v' b', to_complex_b b v = Done (v', b') /\ cplx v' (map (fun x => (x, n0)) l) /\ converted v v'.
Proof. exact @to_complex_b_spec. Qed.
Print Assumptions C24_to_complex_b.
(** One value per point: in place and buffered *)
Theorem C24_transforms : forall {A} `{Num A} `{Flt A} s sched (b : buffer A) (v : dvec A) c, cplx v c -> typed v -> lends b v (length c) ->
  forall f g op, (f, g, op) ∈ [(to_real, to_real_b s sched, fst); (to_imag, to_imag_b s sched, snd); (phase, phase_b s sched, fun x : A * A => fatan2 (snd x) (fst x))] ->
  (exists v', f v = Done v' /\ reals v' (map op c) /\ converted v v' /\ alloc_len v' = alloc_len v) /\
  (exists v' b', g b v = Done (v', b') /\ reals v' (map op c) /\ converted v v').
Proof.
  intros A HA HF s sched b v c Hv Ht Hb f g op Hin.
  repeat (apply elem_of_cons in Hin as [E|Hin]; [injection E as -> -> ->; split; [by apply complex_to_real_spec|by apply complex_to_real_b_spec]|]).
  by apply elem_of_nil in Hin.
Qed.
Print Assumptions C24_transforms.
Theorem C24_magnitude : forall {A} `{Num A} `{Flt A}, (forall a b, fhypot a b = fsqrt (a * a + b * b)%num) ->
  forall r addr s sched (b : buffer A) (v : dvec A) c, reg_ok r -> elem_aligned r addr -> cplx v c -> typed v -> address_ok r addr v -> lends b v (length c) ->
  (exists v', magnitude v = Done v' /\ reals v' (map (fun x => fhypot (fst x) (snd x)) c) /\ converted v v' /\ alloc_len v' = alloc_len v) /\
  (exists v' b', magnitude_b r addr s sched b v = Done (v', b') /\ reals v' (map (fun x => fhypot (fst x) (snd x)) c) /\ converted v v') /\
  (exists v', magnitude_squared v = Done v' /\ reals v' (map (fun x => (fst x * fst x + snd x * snd x)%num) c) /\ converted v v' /\ alloc_len v' = alloc_len v) /\
  (exists v' b', magnitude_squared_b r addr s sched b v = Done (v', b') /\ reals v' (map (fun x => (fst x * fst x + snd x * snd x)%num) c) /\ converted v v').
Proof.
  intros A HA HF Hl r addr s sched b v c Hr Ha Hv Ht Hok Hb. split_and!.
  - by apply complex_to_real_spec.
  - apply (simd_b_spec reg_abs cnorm r addr s sched b v c); try done. intros l Hb'.
    rewrite take_ge by (unfold reg_abs; by rewrite map_length, pairs_of_length, Hb'). unfold reg_abs. apply map_ext. intros [x y]. symmetry. apply Hl.
  - by apply complex_to_real_spec.
  - apply (simd_b_spec reg_abs2 cabs2 r addr s sched b v c); try done. apply halves_pairs.
Qed.
Print Assumptions C24_magnitude.
(** The wrong number space is reported or marks the vector as invalid. *)
Theorem C24_wrong_space : forall {A} `{Num A} `{Flt A} r addr s sched (b : buffer A) (v : dvec A), typed v ->
  (is_complex v = true -> exists v', to_complex v = Done (v', Err InputMustBeReal) /\ is_complex v' = true /\ vdata v' = vdata v /\ converted v v') /\
  (is_complex v = true -> exists v', to_complex_b b v = Done (v', b) /\ poisoned v' /\ is_complex v' = true) /\
  (is_complex v = false -> forall f, f ∈ [to_real; to_imag; phase; magnitude; magnitude_squared] -> exists v', f v = Done v' /\ poisoned v' /\ is_complex v' = false) /\
  (is_complex v = false -> forall f, f ∈ [to_real_b s sched; to_imag_b s sched; phase_b s sched; magnitude_b r addr s sched; magnitude_squared_b r addr s sched] ->
     exists v', f b v = Done (v', b) /\ poisoned v' /\ is_complex v' = false).
Proof.
  intros A HA HF r addr s sched b v Ht. split_and!.
  - intros Hc. by apply to_complex_on_complex.
  - intros Hc. by apply to_complex_b_on_complex.
  - intros Hc f Hf. repeat (apply elem_of_cons in Hf as [->|Hf]; [by apply complex_to_real_on_real|]). by apply elem_of_nil in Hf.
  - intros Hc f Hf. destruct (complex_to_real_on_real fst v Hc Ht) as (v' & E & P & C). unfold complex_to_real in E. rewrite Hc in E. injection E as E. subst v'.
    repeat (apply elem_of_cons in Hf as [->|Hf]; [unfold to_real_b, to_imag_b, phase_b, magnitude_b, magnitude_squared_b, complex_to_real_b, complex_to_real_simd_b;
      rewrite Hc; eexists; split; [reflexivity|done]|]). by apply elem_of_nil in Hf.
Qed.
Print Assumptions C24_wrong_space.
Example C24_ex : let v := ex_vec NReal [1; 2; 3]%Z in reals v [1; 2; 3]%Z /\ typed v /\ wf_storage (data v) /\ can_hold (data v) 6 /\
  (exists v1 v2, to_complex v = Done (v1, Ok tt) /\ cplx v1 [(1, 0); (2, 0); (3, 0)]%Z /\ to_real v1 = Done v2 /\ reals v2 [1; 2; 3]%Z) /\
  (exists v1 b1, magnitude_b f32x4 8 ex_set [] NoBuffer (ex_vec NComplex [3; 4; 6; 8; 5; 12]%Z) = Done (v1, b1) /\ reals v1 [5; 10; 13]%Z).
Proof.
  split_and!; try (vm_compute; done).
  - do 2 eexists. split; [vm_compute; reflexivity|]. split; [vm_compute; done|]. split; [vm_compute; reflexivity|vm_compute; done].
  - do 2 eexists. split; [vm_compute; reflexivity|vm_compute; done].
Qed.

(** C01: on a storage which can not grow, [to_complex()] fails, but the vector it returns is now a complex one with the old data. So an odd number of elements
    gives a complex vector with an odd length. *)
Theorem C01_failed_to_complex : forall {A} `{Num A} (v : dvec A) l, reals v l -> typed v -> wf_storage (data v) -> ~ can_hold (data v) (2 * length l) ->
  exists v', to_complex v = Done (v', Err TypeCanNotResize) /\ is_complex v' = true /\ vdata v' = Done l.
Proof. exact @to_complex_fails. Qed.
Print Assumptions C01_failed_to_complex.
Theorem C01_to_complex_odd_refuted : exists v', to_complex (ex_boxed NReal [1; 2; 3]%Z) = Done (v', Err TypeCanNotResize) /\ wf (ex_boxed NReal [1; 2; 3]%Z) /\ ~ wf v'.
Proof. eexists. split; [vm_compute; reflexivity|]. split; [split; vm_compute; done || lia|]. intros [_ Hw]. by specialize (Hw eq_refl). Qed.
Print Assumptions C01_to_complex_odd_refuted.

(** * C25 unwrap undoes wrap *)

(** For exact numbers. The statement of the property holds if and only if every step to a value outside of the turn of the first one leads further away. *)
Theorem C25_unwrap_wrap : forall s sched (d : R) (v : dvec R) x0 l, (0 < d)%R -> reals v (x0 :: l) -> small_steps d (x0 :: l) ->
  exists v1 v2, wrap s sched d v = Done v1 /\ unwrap d v1 = Done v2 /\ same_meta v v2 /\ same_rest v v2 /\
    (reals v2 (map (fun x => x - d * IZR (turns d x0))%R (x0 :: l)) <-> leads_away d x0 (x0 :: l)).
Proof. exact unwrap_wrap. Qed.
Print Assumptions C25_unwrap_wrap.
(** So it holds for rising and for falling data *)
Theorem C25_monotone : forall s sched (d : R) (v : dvec R) x0 l, (0 < d)%R -> reals v (x0 :: l) -> small_steps d (x0 :: l) ->
  rising (x0 :: l) \/ falling (x0 :: l) ->
  exists v1 v2, wrap s sched d v = Done v1 /\ unwrap d v1 = Done v2 /\ reals v2 (map (fun x => x - d * IZR (turns d x0))%R (x0 :: l)).
Proof.
  intros s sched d v x0 l Hd Hv Hs Hm. destruct (unwrap_wrap s sched d v x0 l Hd Hv Hs) as (v1 & v2 & E1 & E2 & _ & _ & Hi).
  exists v1, v2. split_and!; try done. apply Hi. destruct Hm; [by apply rising_leads_away|by apply falling_leads_away].
Qed.
Print Assumptions C25_monotone.
(** and for data inside of the first turn, which is restored exactly *)
Theorem C25_inside : forall s sched (d : R) (v : dvec R) x0 l, (0 < d)%R -> reals v (x0 :: l) -> small_steps d (x0 :: l) ->
  (forall x, x ∈ x0 :: l -> (Rabs x < d)%R) ->
  exists v1 v2, wrap s sched d v = Done v1 /\ unwrap d v1 = Done v2 /\ reals v2 (x0 :: l).
Proof.
  intros s sched d v x0 l Hd Hv Hs Hin. destruct (unwrap_wrap s sched d v x0 l Hd Hv Hs) as (v1 & v2 & E1 & E2 & _ & _ & Hi).
  destruct (inside_leads_away d x0 l Hd Hin) as [Hl H0]. exists v1, v2. split_and!; try done. apply Hi in Hl. rewrite H0 in Hl.
  replace (map (fun x => x - d * IZR 0)%R (x0 :: l)) with (x0 :: l) in Hl; [done|]. symmetry. rewrite <- map_id. apply map_ext. intros x. lra.
Qed.
Print Assumptions C25_inside.

(** It does not hold in general: data which turns around after it was wrapped. *)
Definition ex_turning : list R := [12; 9; 6; 7]%R.
Theorem C25_refuted : let v := ex_vec NReal ex_turning in reals v ex_turning /\ small_steps 10 ex_turning /\
  exists v1 v2, wrap ex_set [] 10%R v = Done v1 /\ unwrap 10%R v1 = Done v2 /\ ~ reals v2 (map (fun x => x - 10 * IZR (turns 10 12))%R ex_turning).
Proof.
  assert (Hs : small_steps 10 ex_turning).
  { intros j a b Ha Hb. unfold ex_turning in *. destruct j as [|[|[|[|j]]]]; try done; injection Ha as <-; injection Hb as <-; apply Rabs_def1; lra. }
  assert (Hv : reals (ex_vec NReal ex_turning) ex_turning) by done.
  destruct (unwrap_wrap ex_set [] 10 (ex_vec NReal ex_turning) 12 [9; 6; 7]%R) as (v1 & v2 & E1 & E2 & _ & _ & Hi); [lra|done|done|].
  split; [done|]. split; [done|]. exists v1, v2. split_and!; try done. intros Hr. apply Hi in Hr. destruct (Hr 2 6%R 7%R eq_refl eq_refl) as [_ H2].
  assert (turns 10 7 = 0%Z) by (apply Rtrunc_pos; lra). assert (turns 10 12 = 1%Z) by (apply Rtrunc_pos; lra). specialize (H2 ltac:(lia)). lra.
Qed.
Print Assumptions C25_refuted.
Example C25_ex : let l := [8; 11; 15; 19; 22]%R in small_steps 10 l /\ rising l /\ reals (ex_vec NReal l) l.
Proof.
  split_and!; try done; intros j a b Ha Hb; (destruct j as [|[|[|[|[|j]]]]]; try done; injection Ha as <-; injection Hb as <-; try apply Rabs_def1; lra).
Qed.

(** * C47 Functions applied to each point *)

Theorem C47_unary : forall {A} (rf : A -> A) cf co s sched (v : dvec A), no_threads_for_nothing co s \/ len v <> 0 ->
  (forall l, reals v l -> exists v', unary rf cf co s sched v = Done v' /\ reals v' (map rf l) /\ same_meta v v' /\ same_rest v v') /\
  (forall c, cplx v c -> exists v', unary rf cf co s sched v = Done v' /\ cplx v' (map cf c) /\ same_meta v v' /\ same_rest v v').
Proof. exact @unary_spec. Qed.
Print Assumptions C47_unary.
Theorem C47_sqrt : forall {A} `{Flt A} r addr s sched (v : dvec A), reg_ok r -> elem_aligned r addr -> address_ok r addr v ->
  (forall l, reals v l -> exists v', vsqrt r addr s sched v = Done v' /\ reals v' (map fsqrt l) /\ same_meta v v' /\ same_rest v v') /\
  (forall c, cplx v c -> exists v', vsqrt r addr s sched v = Done v' /\ cplx v' (map fcsqrt c) /\ same_meta v v' /\ same_rest v v').
Proof. exact @vsqrt_spec. Qed.
Print Assumptions C47_sqrt.
Theorem C47_square : forall {A} `{Num A} `{Flt A} r addr s sched (v : dvec A), reg_ok r -> elem_aligned r addr -> address_ok r addr v ->
  (forall l, reals v l -> exists v', vsquare r addr s sched v = Done v' /\ reals v' (map (fun x => x * x)%num l) /\ same_meta v v' /\ same_rest v v') /\
  (forall c, cplx v c -> exists v', vsquare r addr s sched v = Done v' /\
     cplx v' (map (fun '(x, y) => (x * x - y * y, x * y + y * x)%num) c) /\ same_meta v v' /\ same_rest v v').
Proof.
  intros A HA HF r addr s sched v Hr Ha Hok. destruct (vsquare_spec r addr s sched v Hr Ha Hok) as [H1 H2]. split; [done|].
  intros c Hc. destruct (H2 c Hc) as (v' & E & C & R). exists v'. split; [done|]. split; [|done].
  rewrite (map_ext _ (fun x => cmul x x)); [done|]. by intros [x y].
Qed.
Print Assumptions C47_square.
Theorem C47_abs : forall {A} `{Num A} `{Flt A} `{Rem A}, (forall x : A, fsqrt (x * x)%num = fabs x) ->
  forall r addr s sched (v : dvec A), reg_ok r -> elem_aligned r addr -> address_ok r addr v ->
  (forall l, reals v l -> exists v', vabs r addr s sched v = Done v' /\ reals v' (map fabs l) /\ same_meta v v' /\ same_rest v v') /\
  (is_complex v = true -> exists v', vabs r addr s sched v = Done v' /\ poisoned v').
Proof. intros. split; [intros; by apply vabs_spec | intros; by apply abs_on_complex]. Qed.
Print Assumptions C47_abs.
Example C47_ex : let v := ex_vec NComplex [1; 2; 3; 4; 5; 6; 7; 8]%Z in
  cplx v [(1, 2); (3, 4); (5, 6); (7, 8)]%Z /\ 1 < determine_number_of_chunks 8 Medium ex_set /\ no_threads_for_nothing Medium ex_set /\
  exists v', unary Z.opp (fun '(x, y) => (x + 1, y)%Z) Medium ex_set [1; 0; 1] v = Done v' /\ cplx v' [(2, 2); (4, 4); (6, 6); (8, 8)]%Z.
Proof. split_and!; try (vm_compute; done || lia). eexists. split; [vm_compute; reflexivity|vm_compute; done]. Qed.
Example C47_abs_ex : (forall x : R, fsqrt (x * x)%num = fabs x) /\ reals (ex_vec NReal [1; -2]%R) [1; -2]%R.
Proof. split; [exact R_abs|done]. Qed.

(** * C48 conj and multiply_complex_exponential *)

Theorem C48_conj : forall {A} `{Num A} `{Flt A}, (forall x : A, x * n1 = x)%num -> (forall x : A, x * nopp n1 = nopp x)%num ->
  forall r addr s sched (v : dvec A), reg_ok r -> elem_aligned r addr ->
  (forall c, cplx v c -> address_ok r addr v ->
     exists v', vconj r addr s sched v = Done v' /\ cplx v' (map (fun '(x, y) => (x, nopp y)) c) /\ same_meta v v' /\ same_rest v v') /\
  (is_complex v = false -> exists v', vconj r addr s sched v = Done v' /\ poisoned v' /\ is_complex v' = false).
Proof. intros. split; [intros; by apply conj_spec | intros; by apply conj_on_real]. Qed.
Print Assumptions C48_conj.
(** Point [i] is rotated by [(a * i + b) * delta] *)
Theorem C48_exponential : forall {A} `{Num A} `{Flt A}, exact_ring A ->
  (forall x y : A, fpolar n1 (x + y)%num = complex_product (fpolar n1 x) (fpolar n1 y)) -> nofnat 0 = n0 -> (forall n, nofnat (S n) = nofnat n + n1)%num ->
  forall s sched (a b : A) (v : dvec A),
  (forall c, cplx v c -> exists v', multiply_complex_exponential s sched a b v = Done v' /\
    cplx v' (imap (fun i x => complex_product x (fpolar n1 ((a * nofnat i + b) * delta v)%num)) c) /\ same_meta v v' /\ same_rest v v') /\
  (is_complex v = false -> exists v', multiply_complex_exponential s sched a b v = Done v' /\ poisoned v' /\ is_complex v' = false).
Proof. intros. split; [intros; by apply exponential_spec | intros; by apply exponential_on_real]. Qed.
Print Assumptions C48_exponential.
(** For the real numbers all these laws hold *)
Theorem C48_exponential_exact : forall s sched (a b : R) (v : dvec R) c, cplx v c ->
  exists v', multiply_complex_exponential s sched a b v = Done v' /\ same_meta v v' /\
    cplx v' (imap (fun i '(x, y) => let phi := ((a * INR i + b) * delta v)%R in (x * cos phi - y * sin phi, x * sin phi + y * cos phi)%R) c).
Proof.
  intros s sched a b v c Hv. destruct (exponential_spec R_exact s sched a b v c R_polar (proj1 R_nofnat) (proj2 R_nofnat) Hv) as (v' & E & C & M & _).
  exists v'. split_and!; try done. replace (imap _ c) with (imap (fun i x => cmul x (fpolar n1 ((a * nofnat i + b) * delta v)%num)) c); [done|].
  apply imap_ext. intros i [x y] _. unfold cmul. simpl. f_equal; ring.
Qed.
Print Assumptions C48_exponential_exact.
Example C48_ex : cplx (ex_vec NComplex [1; 2; 3; 4]%R) [(1, 2); (3, 4)]%R /\
  exists v', vconj f32x4 8 ex_set [] (ex_vec NComplex [1; 2; 3; 4; 5; 6]%Z) = Done v' /\ cplx v' [(1, -2); (3, -4); (5, -6)]%Z.
Proof. split; [done|]. eexists. split; [vm_compute; reflexivity|vm_compute; done]. Qed.
