(** Theorems for C74: rounding errors of the convolutions which neither use registers nor Fourier transforms *)
From Verif Require Import Proof_F64 Proof_Convolve Proof_Overlap Proof_OverlapV Proof_Prec Proof_PrecOps Proof_Round Spec_Round Spec_Convolve Model_Double Props_Prec Props_Stats.
From stdpp Require Import list_numbers tactics.
From Coq Require Import Lia.
Local Open Scope R_scope.

(** The products which point [i] of [convolve_signal] is the sum of, as the machine rounds them *)
Definition products {P} (zero : P) (mul : P -> P -> P) (x h : list P) (i : nat) : list P :=
  map (fun k => mul (around zero x (Z.of_nat i + Z.of_nat ((length h + 1) / 2) - 1 - Z.of_nat k)) (default zero (h !! k))) (seq 0 (length h)).
(** ... and for the convolution with a function *)
Definition function_products {A P} `{Num A} (zero : P) (mul : P -> P -> P) (f : A -> P) (ratio : A) (reach : nat) (x : list P) (i : nat) : list P :=
  map (fun t => mul (around zero x (Z.of_nat i + Z.of_nat t - Z.of_nat reach)) (f (nopp (counted reach t) * ratio)%num)) (seq 0 (2 * reach + 1)).

Section machine.
Context {A : Type} `{Num A} (val : A -> R) (usual : A -> Prop) (u : R) (HR : rounds val usual u) (Hu : 0 <= u).

Lemma sum_near l k : (length l <= k)%nat -> INR k * u <= 1 -> (forall p, p ∈ l -> usual p) ->
  usual (foldl nadd n0 l) /\ within u (2 * INR k) (map val l) (val (foldl nadd n0 l)).
Proof.
  intros Hl Hk Hx. pose proof (near_plain val usual u HR Hu l Hx) as N. split; [apply N|].
  apply (near_within val usual u Hu k _ _ Hk). by apply (near_le val usual u Hu (length l)).
Qed.
Lemma csum_parts (l : list (A * A)) : foldl cadd (n0, n0) l = (foldl nadd n0 (map fst l), foldl nadd n0 (map snd l)).
Proof.
  assert (G : forall a b, foldl cadd (a, b) l = (foldl nadd a (map fst l), foldl nadd b (map snd l))); [|apply G].
  induction l as [|[x y] l IH]; intros a b; [done|]. cbn [foldl map]. unfold cadd at 2. cbn [fst snd]. apply IH.
Qed.
Lemma csum_near l k : (length l <= k)%nat -> INR k * u <= 1 -> (forall p, p ∈ l -> usual (fst p) /\ usual (snd p)) ->
  within u (2 * INR k) (map (fun p => val (fst p)) l) (val (fst (foldl cadd (n0, n0) l))) /\
  within u (2 * INR k) (map (fun p => val (snd p)) l) (val (snd (foldl cadd (n0, n0) l))).
Proof.
  intros Hl Hk Hx. rewrite csum_parts. cbn [fst snd]. rewrite <- (map_map fst val), <- (map_map snd val).
  split; apply sum_near; rewrite ?map_length; try done; intros p (q & -> & Hq)%elem_of_list_fmap; by apply Hx.
Qed.
End machine.

(** [convolve_signal] of real vectors which have at most 1000 numbers, or an impulse response with less than 12 or more than 202 of them *)
Theorem C74_convolve_signal : forall {A} `{Num A} `{F : Fft A} (val : A -> R) usual u, rounds val usual u -> 0 <= u ->
  forall r addr s sched b (v o : dvec A) x h, reals v x -> reals o h -> meta_agree v o -> vdomain v = Time -> (length h <= length x)%nat -> lends b v (length x) ->
  x <> [] \/ no_threads_for_nothing Large s -> ~ (1000 < length x /\ 11 < length h <= 202)%nat -> INR (length h) * u <= 1 ->
  (forall i p, (i < length x)%nat -> p ∈ products n0 nmul x h i -> usual p) ->
  exists v' b' y, convolve_signal r addr s sched b v o = Done (v', b', Ok tt) /\ reals v' y /\ length y = length x /\
    forall i, (i < length x)%nat -> exists q, y !! i = Some q /\ usual q /\ within u (2 * INR (length h)) (map val (products n0 nmul x h i)) (val q).
Proof.
  intros A HN F val usual u HR Hu r addr s sched b v o x h Hv Ho Hm Hd Hl Hb Hs Hno Hk Hx.
  destruct (convolve_scalar_reals s sched b v o x h Hv Ho Hl Hb Hs) as (v' & b' & E & Hv' & _).
  exists v', b', (centred_convolution n0 nadd nmul x h). split; [|split; [exact Hv'|split; [apply circular_convolution_length|]]].
  - unfold convolve_signal. assert (Hmd : meta_disagree v o = false) by (destruct (meta_disagree v o) eqn:Em; [by apply meta_disagree_spec in Em | done]).
    rewrite Hmd, Hd. cbn [ddomain_eqb negb]. rewrite (points_reals v x Hv), (points_reals o h Ho).
    rewrite (proj2 (Nat.ltb_ge _ _) Hl). rewrite (reals_len v x (proj2 Hv)), (reals_len o h (proj2 Ho)).
    destruct ((1000 <? length x)%nat && (length h <=? 202)%nat && (11 <? length h)%nat) eqn:E1.
    { exfalso. apply andb_prop in E1 as [[E1 E2]%andb_prop E3]. apply Nat.ltb_lt in E1. apply Nat.leb_le in E2. apply Nat.ltb_lt in E3. apply Hno. lia. }
    rewrite (proj1 Hv), andb_false_r, E. done.
  - intros i Hi. eexists. split; [unfold centred_convolution; by rewrite circular_convolution_lookup|]. unfold series.
    apply (sum_near val usual u HR Hu); [by rewrite map_length, seq_length|exact Hk|]. intros p Hp. by apply (Hx i).
Qed.
Print Assumptions C74_convolve_signal.

(** [convolve] with a function of the time, real and complex, and the loop over the points of complex signals *)
Theorem C74_convolve_function : forall {A} `{Num A} (val : A -> R) usual u, rounds val usual u -> 0 <= u ->
  forall (f : A -> A) ratio reach b (v : dvec A) x, let k := Nat.min reach (length x) in reals v x -> lends b v (length x) -> INR (2 * k + 1) * u <= 1 ->
  (forall i p, (i < length x)%nat -> p ∈ function_products n0 nmul f ratio k x i -> usual p) ->
  exists v' b' y, convolve_function_real f ratio reach b v = Done (v', b') /\ reals v' y /\ length y = length x /\
    forall i, (i < length x)%nat -> exists q, y !! i = Some q /\ usual q /\ within u (2 * INR (2 * k + 1)) (map val (function_products n0 nmul f ratio k x i)) (val q).
Proof.
  intros A HN val usual u HR Hu f ratio reach b v x k Hv Hb Hk Hx.
  destruct (convolve_function_reals f ratio reach b v x Hv Hb) as (v' & b' & E & _ & Hv').
  eexists v', b', _. split; [exact E|]. split; [exact Hv'|]. split; [unfold function_convolution; by rewrite map_length, seq_length|].
  intros i Hi. eexists. split; [unfold function_convolution; by rewrite list_lookup_fmap, lookup_seq_lt|]. unfold series.
  apply (sum_near val usual u HR Hu); [by rewrite map_length, seq_length|exact Hk|]. intros p Hp. by apply (Hx i).
Qed.
Print Assumptions C74_convolve_function.
Theorem C74_convolve_function_complex : forall {A} `{Num A} (val : A -> R) usual u, rounds val usual u -> 0 <= u ->
  forall (f : A -> A * A) ratio reach b (v : dvec A) x, let k := Nat.min reach (length x) in cplx v x -> lends b v (2 * length x) -> INR (2 * k + 1) * u <= 1 ->
  (forall i p, (i < length x)%nat -> p ∈ function_products (n0, n0) complex_product f ratio k x i -> usual (fst p) /\ usual (snd p)) ->
  exists v' b' y, convolve_function_complex f ratio reach b v = Done (v', b') /\ cplx v' y /\ length y = length x /\
    forall i, (i < length x)%nat -> exists q, y !! i = Some q /\
      within u (2 * INR (2 * k + 1)) (map (fun p => val (fst p)) (function_products (n0, n0) complex_product f ratio k x i)) (val (fst q)) /\
      within u (2 * INR (2 * k + 1)) (map (fun p => val (snd p)) (function_products (n0, n0) complex_product f ratio k x i)) (val (snd q)).
Proof.
  intros A HN val usual u HR Hu f ratio reach b v x k Hv Hb Hk Hx.
  destruct (convolve_function_cplx f ratio reach b v x Hv Hb) as (v' & b' & E & _ & Hv').
  eexists v', b', _. split; [exact E|]. split; [exact Hv'|]. split; [unfold function_convolution; by rewrite map_length, seq_length|].
  intros i Hi. eexists. split; [unfold function_convolution; by rewrite list_lookup_fmap, lookup_seq_lt|]. unfold series.
  apply (csum_near val usual u HR Hu); [by rewrite map_length, seq_length|exact Hk|]. intros p Hp. by apply (Hx i).
Qed.
Print Assumptions C74_convolve_function_complex.
(** [convolve_signal] of complex vectors with at most 1000 numbers *)
Theorem C74_convolve_signal_complex : forall {A} `{Num A} `{F : Fft A} (val : A -> R) usual u, rounds val usual u -> 0 <= u ->
  forall r addr s sched b (v o : dvec A) x h, cplx v x -> cplx o h -> meta_agree v o -> vdomain v = Time -> (length h <= length x)%nat -> lends b v (2 * length x) ->
  x <> [] \/ no_threads_for_nothing Large s -> (2 * length x <= 1000)%nat -> INR (length h) * u <= 1 ->
  (forall i p, (i < length x)%nat -> p ∈ products (n0, n0) complex_product x h i -> usual (fst p) /\ usual (snd p)) ->
  exists v' b' y, convolve_signal r addr s sched b v o = Done (v', b', Ok tt) /\ cplx v' y /\ length y = length x /\
    forall i, (i < length x)%nat -> exists q, y !! i = Some q /\
      within u (2 * INR (length h)) (map (fun p => val (fst p)) (products (n0, n0) complex_product x h i)) (val (fst q)) /\
      within u (2 * INR (length h)) (map (fun p => val (snd p)) (products (n0, n0) complex_product x h i)) (val (snd q)).
Proof.
  intros A HN F val usual u HR Hu r addr s sched b v o x h Hv Ho Hm Hd Hl Hb Hs Hno Hk Hx.
  destruct (convolve_scalar_cplx s sched b v o x h Hv Ho Hl Hb Hs) as (v' & b' & E & Hv' & _).
  exists v', b', (centred_convolution (n0, n0) complex_sum complex_product x h). split; [|split; [exact Hv'|split; [apply circular_convolution_length|]]].
  - unfold convolve_signal. assert (Hmd : meta_disagree v o = false) by (destruct (meta_disagree v o) eqn:Em; [by apply meta_disagree_spec in Em | done]).
    rewrite Hmd, Hd. cbn [ddomain_eqb negb]. rewrite (points_cplx v x Hv), (points_cplx o h Ho).
    rewrite (proj2 (Nat.ltb_ge _ _) Hl). rewrite (reals_len v _ (proj2 Hv)), complex_to_array_length.
    rewrite (proj2 (Nat.ltb_ge 1000 (2 * length x)) Hno). cbn [andb].
    replace (100 * 100 <? 2 * length x)%nat with false by (symmetry; apply Nat.ltb_ge; change (100 * 100)%nat with (10 * 1000)%nat; lia). cbn [andb]. rewrite E. done.
  - intros i Hi. eexists. split; [unfold centred_convolution; by rewrite circular_convolution_lookup|]. unfold series.
    apply (csum_near val usual u HR Hu); [by rewrite map_length, seq_length|exact Hk|]. intros p Hp. by apply (Hx i).
Qed.
Print Assumptions C74_convolve_signal_complex.

(** f64: the products are finite numbers as long as nothing overflows. *)
Theorem C74_f64 : forall `{F : Fft R} r addr s sched b (v o : dvec R) x h, reals v x -> reals o h -> @meta_agree R f64_num v o -> vdomain v = Time ->
  (length h <= length x)%nat -> lends b v (length x) -> x <> [] \/ no_threads_for_nothing Large s -> ~ (1000 < length x /\ 11 < length h <= 202)%nat ->
  (Z.of_nat (length h) <= 2 ^ 53)%Z ->
  exists v' b' y, @convolve_signal R f64_num F r addr s sched b v o = Done (v', b', Ok tt) /\ reals v' y /\ length y = length x /\
    forall i, (i < length x)%nat -> exists q, y !! i = Some q /\ let ps := products 0 (fun a b => round radix2 (FLT_exp (-1074) 53) ZnearestE (a * b)) x h i in
      Rabs (q - Rsum ps) <= INR (length h) * / 2 ^ 52 * Rsum (map Rabs ps).
Proof.
  intros F r addr s sched b v o x h Hv Ho Hm Hd Hl Hb Hs Hno Hn. destruct C67_f64 as [HR _].
  assert (Hk : INR (length h) * / 2 ^ 53 <= 1).
  { apply (Rmult_le_reg_r (2 ^ 53)); [apply Rlt_gt, pow_lt; lra|]. rewrite Rmult_assoc, Rinv_l, Rmult_1_r, Rmult_1_l by (apply Rgt_not_eq, pow_lt; lra).
    rewrite INR_IZR_INZ, pow_IZR. apply IZR_le. exact Hn. }
  destruct (@C74_convolve_signal R f64_num F (fun x => x) _ _ HR (proj1 f64_small_unit) r addr s sched b v o x h Hv Ho Hm Hd Hl Hb Hs Hno Hk)
    as (v' & b' & y & E & Hy & Ly & G).
  - intros i p _ (k & -> & _)%elem_of_list_fmap. apply f64_round_usual.
  - exists v', b', y. split; [exact E|]. split; [exact Hy|]. split; [exact Ly|]. intros i Hi. destruct (G i Hi) as (q & Eq & _ & W). exists q. split; [exact Eq|].
    unfold within in W. rewrite map_id in W. refine (Rle_trans _ _ _ W _). right.
    replace (/ 2 ^ 52) with (2 * / 2 ^ 53); [unfold products; cbn [nmul f64_num]; unfold f64_round, f64_exp; change (@n0 R f64_num) with 0; ring|].
    change (2 ^ 53) with (2 * 2 ^ 52). rewrite Rinv_mult. field.
Qed.
Print Assumptions C74_f64.

Definition ex_real (l : list R) : dvec R := DVec (Storage KVec (length l) l) 1 DTime NReal (length l).
Lemma ex_reals l : reals (ex_real l) l.
Proof. split; [done|]. apply (vdata_intro _ l []); [by rewrite app_nil_r | done]. Qed.
Lemma ex_agree l l' : @meta_agree R f64_num (ex_real l) (ex_real l').
Proof.
  split; [done|]. split; [done|]. unfold ex_real. cbn [delta nltb ndiv nofnat f64_num]. rewrite !INR_IZR_INZ.
  rewrite (f64_int (Z.of_nat 11)), (f64_int (Z.of_nat 10)), (f64_int (Z.of_nat 9)) by lia. change (Z.of_nat 11) with 11%Z. change (Z.of_nat 10) with 10%Z. change (Z.of_nat 9) with 9%Z.
  assert (M : forall a b, a <= b -> f64_round a <= f64_round b).
  { intros a b Hab. apply round_le; [apply FLT_exp_valid; done|apply valid_rnd_N|exact Hab]. }
  split.
  - destruct (Rlt_dec (f64_round (11 / 10)) (f64_round (1 / 1))) as [Hlt|]; [|done]. exfalso. specialize (M (1 / 1) (11 / 10) ltac:(lra)). lra.
  - destruct (Rlt_dec (f64_round (1 / 1)) (f64_round (9 / 10))) as [Hlt|]; [|done]. exfalso. specialize (M (9 / 10) (1 / 1) ltac:(lra)). lra.
Qed.
Example C74_example : forall `{F : Fft R}, exists v' b' y,
  @convolve_signal R f64_num F f64x2 48 ex_set [] (SingleBuffer []) (ex_real [/ 3; 1; 2]) (ex_real [/ 10; / 5]) = Done (v', b', Ok tt) /\ reals v' y /\ length y = 3%nat /\
    forall i, (i < 3)%nat -> exists q, y !! i = Some q /\ let ps := products 0 (fun a b => round radix2 (FLT_exp (-1074) 53) ZnearestE (a * b)) [/ 3; 1; 2] [/ 10; / 5] i in
      Rabs (q - Rsum ps) <= INR 2 * / 2 ^ 52 * Rsum (map Rabs ps).
Proof.
  intros F. apply (C74_f64 (F := F) f64x2 48 ex_set [] (SingleBuffer []) (ex_real [/ 3; 1; 2]) (ex_real [/ 10; / 5]) [/ 3; 1; 2] [/ 10; / 5]).
  - apply ex_reals.
  - apply ex_reals.
  - apply ex_agree.
  - done.
  - cbn. lia.
  - done.
  - by left.
  - cbn. lia.
  - cbn. lia.
Qed.
