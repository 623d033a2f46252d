From Verif Require Import Proof_StatsOps Spec_Prec Proof_Prec Model_Double.
From Flocq Require Import Relative Plus_error.
From stdpp Require Import list_numbers.
From Coq Require Import Lia.
Local Open Scope R_scope.

(** ** The fields sum and rms of precise statistics are compensated sums *)
Lemma worker_prec_sum {P} `{StatOps P} j (l : list P) :
  st_sum (stats_worker_prec j l) = kahan_sum t_zero t_add t_sub l /\
  st_rms (stats_worker_prec j l) = kahan_sum t_zero t_add t_sub (map (fun x => t_mul x x) l) /\ st_count (stats_worker_prec j l) = length l.
Proof.
  unfold stats_worker_prec, kahan_sum.
  assert (G : forall st sc rc i,
    let p := foldl (fun '(st, sumc, rmsc, j0) x => (stats_add_prec st x j0 sumc rmsc, (j0 + 1)%nat)) (st, sc, rc, i) l in
    let step := fun '(sum, c) n => let y := t_sub n c in let t := t_add sum y in (t, t_sub (t_sub t sum) y) in
    st_sum (fst (fst (fst p))) = fst (foldl step (st_sum st, sc) l) /\
    st_rms (fst (fst (fst p))) = fst (foldl step (st_rms st, rc) (map (fun x => t_mul x x) l)) /\
    st_count (fst (fst (fst p))) = (st_count st + length l)%nat).
  { induction l as [|x l IH]; intros st sc rc i; cbv zeta; [cbn [foldl fst map length]; split_and!; [done|done|lia]|].
    cbn [foldl map length]. destruct (stats_add_prec st x i sc rc) as [[st' sc'] rc'] eqn:E. unfold stats_add_prec in E. injection E as <- <- <-.
    match goal with |- context [foldl _ (?s, ?a, ?b, ?i) l] => specialize (IH s a b i) end.
    cbv zeta in IH. destruct IH as (I1 & I2 & I3). rewrite I1, I2, I3. cbn [st_sum st_rms st_count]. split_and!; [done|done|lia]. }
  specialize (G stats_empty t_zero t_zero j). cbv zeta in G. destruct G as (-> & -> & ->). done.
Qed.

(** ** Complex compensated sums are two real ones *)
Lemma kahan_complex {A} `{Num A} (l : list (A * A)) :
  kahan_sum (n0, n0) cadd csub l = (kahan_sum n0 nadd nsub (map fst l), kahan_sum n0 nadd nsub (map snd l)).
Proof.
  unfold kahan_sum.
  assert (G : forall s1 s2 c1 c2,
    foldl (fun '(sum, c) n => let y := csub n c in let t := cadd sum y in (t, csub (csub t sum) y)) ((s1, s2), (c1, c2)) l =
    let step := fun '(sum, c) n => let y := (n - c)%num in let t := (sum + y)%num in (t, ((t - sum) - y)%num) in
    let p := foldl step (s1, c1) (map fst l) in let q := foldl step (s2, c2) (map snd l) in ((fst p, fst q), (snd p, snd q))).
  { induction l as [|[x y] l IH]; intros s1 s2 c1 c2; [reflexivity|]. cbn [foldl map fst snd]. cbv zeta. unfold cadd, csub. cbn [fst snd].
    unfold cadd, csub in IH. rewrite IH. reflexivity. }
  rewrite G. reflexivity.
Qed.

Section machine.
Context {A : Type} `{Num A} `{Flt A} (val : A -> R) (usual : A -> Prop) (u : R) (HR : rounds val usual u).

Lemma within_le k k' l x : 0 <= u -> k <= k' -> within u k l x -> within u k' l x.
Proof.
  intros Hu Hk Hw. unfold within in *. apply (Rle_trans _ _ _ Hw). pose proof (Rsum_abs_pos l). apply Rmult_le_compat_r; [done|].
  apply Rmult_le_compat_r; lra.
Qed.
Lemma within_nil k : within u k [] 0.
Proof. unfold within. rewrite !Rsum_nil. cbn [map]. rewrite Rsum_nil. replace (0 - 0) with 0 by ring. rewrite Rabs_R0. lra. Qed.

Lemma kahan_finished (l : list A) : not_too_many u l -> (forall x, x ∈ l -> usual x) ->
  usual (n0 + kahan_sum n0 nadd nsub l)%num /\ within u 6 (map val l) (val (n0 + kahan_sum n0 nadd nsub l)%num).
Proof.
  intros Hn Hl. destruct (kahan_within val usual u HR l Hn Hl) as [Uk Wk]. destruct Hn as [Hu _].
  destruct (zero_plus_within val usual u HR _ _ (9 / 2) Hu ltac:(lra) Uk Wk) as [U1 W1]. split; [done|].
  apply (within_le (9 / 2 + 9 / 8)); [lra|lra|done].
Qed.

Lemma not_too_many_map {Q Q'} (f : Q -> Q') (l : list Q) : not_too_many u l -> not_too_many u (map f l).
Proof. unfold not_too_many. by rewrite map_length. Qed.

Lemma vsum_prec_within (op : A -> A) s order (v : dvec A) l : reals v l -> not_too_many u l -> (forall x, x ∈ l -> usual (op x)) ->
  exists x, vsum_prec op s order v = Done x /\ usual x /\ within u 6 (map (fun y => val (op y)) l) (val x).
Proof.
  intros [_ Hv] Hn Hl. unfold vsum_prec. rewrite (vdata_slice v l Hv), bind_Done, get_chunked_small.
  destruct l as [|y l].
  - rewrite bind_Done. exists n0. destruct (r_zero _ _ _ HR) as [Uz Vz]. split_and!; [done|done|]. rewrite Vz. apply within_nil.
  - rewrite !bind_Done. cbn [foldl]. eexists. split; [reflexivity|].
    replace (map (fun y0 => val (op y0)) (y :: l)) with (map val (map op (y :: l))) by (by rewrite map_map).
    apply kahan_finished; [by apply not_too_many_map|]. intros z (w & -> & Hw)%elem_of_list_fmap. by apply Hl.
Qed.

Lemma vsum_prec_complex_within (op : A * A -> A * A) s order (v : dvec A) c : cplx v c -> not_too_many u c ->
  (forall x, x ∈ c -> usual (fst (op x)) /\ usual (snd (op x))) ->
  exists x, vsum_prec_complex op s order v = Done x /\
    within u 6 (map (fun y => val (fst (op y))) c) (val (fst x)) /\ within u 6 (map (fun y => val (snd (op y))) c) (val (snd x)).
Proof.
  intros [_ Hv] Hn Hl. unfold vsum_prec_complex. rewrite (vdata_slice v _ Hv), bind_Done, get_chunked_small.
  destruct c as [|[y1 y2] c].
  - change (complex_to_array []) with (@nil A). cbv iota. rewrite bind_Done. exists (n0, n0). destruct (r_zero _ _ _ HR) as [Uz Vz]. cbn [fst snd]. rewrite Vz. split_and!; [done| |]; apply within_nil.
  - change (complex_to_array ((y1, y2) :: c)) with (y1 :: y2 :: complex_to_array c). cbv iota.
    change (y1 :: y2 :: complex_to_array c) with (complex_to_array ((y1, y2) :: c)). rewrite array_to_complex_Done, !bind_Done.
    cbn [foldl]. rewrite kahan_complex. unfold cadd. cbn [fst snd]. eexists. split; [reflexivity|]. cbn [fst snd].
    set (l := (y1, y2) :: c) in *. split.
    + replace (map (fun y => val (fst (op y))) l) with (map val (map fst (map op l))) by (by rewrite !map_map).
      apply kahan_finished; [by do 2 apply not_too_many_map|].
      intros z (w & -> & (w' & -> & Hw)%elem_of_list_fmap)%elem_of_list_fmap. exact (proj1 (Hl _ Hw)).
    + replace (map (fun y => val (snd (op y))) l) with (map val (map snd (map op l))) by (by rewrite !map_map).
      apply kahan_finished; [by do 2 apply not_too_many_map|].
      intros z (w & -> & (w' & -> & Hw)%elem_of_list_fmap)%elem_of_list_fmap. exact (proj2 (Hl _ Hw)).
Qed.

Lemma vstatistics_prec_within s order (v : dvec A) l : reals v l -> l <> [] -> not_too_many u l -> (forall x, x ∈ l -> usual x) ->
  exists st, vstatistics_prec s order v = Done st /\ st_count st = length l /\
    within u 6 (map val l) (val (st_sum st)) /\ st_average st = (st_sum st / nofnat (length l))%num /\
    ((forall x, x ∈ l -> usual (x * x)%num) ->
     exists sq, st_rms st = fsqrt (sq / nofnat (length l))%num /\ within u 6 (map (fun x => val (x * x)%num) l) (val sq)).
Proof.
  intros [_ Hv] Hne Hn Hl. unfold vstatistics_prec. rewrite (vdata_slice v l Hv), bind_Done, get_chunked_small.
  destruct l as [|y l]; [done|]. unfold real_piece. rewrite !bind_Done. eexists. split; [reflexivity|]. set (l' := y :: l) in *. clearbody l'. cbn [fst].
  destruct (worker_prec_sum (P := A) 0 l') as (E1 & E2 & E3). rewrite stats_merge_one. unfold finished. cbn [st_sum st_count st_average st_rms].
  rewrite E1, E2, E3. cbn [t_add t_sub t_zero t_mul t_divn t_sqrt real_stats].
  split_and!; [done|by apply kahan_finished|done|].
  intros Hsq. eexists. split; [reflexivity|].
  replace (map (fun x => val (x * x)%num) l') with (map val (map (fun x => (x * x)%num) l')) by (by rewrite !map_map).
  apply kahan_finished; [by apply not_too_many_map|]. intros z (w & -> & Hw)%elem_of_list_fmap. by apply Hsq.
Qed.

Lemma vstatistics_prec_complex_within s order (v : dvec A) c : cplx v c -> c <> [] -> not_too_many u c ->
  (forall x, x ∈ c -> usual (fst x) /\ usual (snd x)) ->
  exists st, vstatistics_prec_complex s order v = Done st /\ st_count st = length c /\
    within u 6 (map (fun x => val (fst x)) c) (val (fst (st_sum st))) /\ within u 6 (map (fun x => val (snd x)) c) (val (snd (st_sum st))).
Proof.
  intros [_ Hv] Hne Hn Hl. unfold vstatistics_prec_complex. rewrite (vdata_slice v _ Hv), bind_Done, get_chunked_small.
  destruct c as [|[y1 y2] c]; [done|]. change (complex_to_array ((y1, y2) :: c)) with (y1 :: y2 :: complex_to_array c). cbv iota.
  change (y1 :: y2 :: complex_to_array c) with (complex_to_array ((y1, y2) :: c)). unfold complex_piece. rewrite array_to_complex_Done, !bind_Done.
  eexists. split; [reflexivity|]. set (l := (y1, y2) :: c) in *. clearbody l. cbn [fst]. change (0 / 2)%nat with 0%nat.
  destruct (worker_prec_sum (P := A * A) 0 l) as (E1 & E2 & E3). rewrite stats_merge_one. unfold finished. cbn [st_sum st_count st_average st_rms].
  rewrite E1, E3. cbn [t_add t_sub t_zero complex_stats]. rewrite kahan_complex. unfold cadd. cbn [fst snd]. split_and!; [done| |].
  - replace (map (fun x => val (fst x)) l) with (map val (map fst l)) by (by rewrite !map_map).
    apply kahan_finished; [by apply not_too_many_map|]. intros z (w & -> & Hw)%elem_of_list_fmap. exact (proj1 (Hl _ Hw)).
  - replace (map (fun x => val (snd x)) l) with (map val (map snd l)) by (by rewrite !map_map).
    apply kahan_finished; [by apply not_too_many_map|]. intros z (w & -> & Hw)%elem_of_list_fmap. exact (proj2 (Hl _ Hw)).
Qed.
End machine.

(** ** f32 *)
Section f32.
Context {A B : Type} `{Num A} `{Num B} `{Flt B} (widen : A -> B).

Lemma widened_worker_map {Q P} `{StatOps P} (w : Q -> P) j (l : list Q) : widened_worker w j l = stats_worker j (map w l).
Proof.
  unfold widened_worker, stats_worker. f_equal. generalize (stats_empty, j). induction l as [|x l IH]; intros [st i]; [reflexivity|]. cbn [foldl map]. apply IH.
Qed.
Lemma widened_split_worker_map {Q P} `{StatOps P} (w : Q -> P) k j (l : list Q) : widened_split_worker w k j l = split_worker k j (map w l).
Proof.
  unfold widened_split_worker, split_worker. f_equal. generalize (Done (replicate k (stats_empty (P := P)), j)).
  induction l as [|x l IH]; intros m; [reflexivity|]. cbn [foldl map]. apply IH.
Qed.
Lemma widen_array (c : list (A * A)) : map widen (complex_to_array c) = complex_to_array (map (widen_complex widen) c).
Proof. induction c as [|[x y] c IH]; [reflexivity|]. unfold complex_to_array in *. cbn. by rewrite IH. Qed.
Lemma foldl_map_add {Q P} (w : Q -> P) (add : P -> P -> P) (l : list Q) acc : foldl (fun sum n => add sum (w n)) acc l = foldl add acc (map w l).
Proof. revert acc. induction l as [|x l IH]; intros acc; [reflexivity|]. cbn [foldl map]. apply IH. Qed.

Lemma prec32_real s order s' order' (v : dvec A) (w : dvec B) l : vdata v = Done l -> vdata w = Done (map widen l) ->
  vstatistics_prec32 widen s order v = vstatistics s' order' w /\
  (forall k, vstatistics_split_prec32 widen s order v k = vstatistics_split s' order' w k) /\
  vsum_prec32 widen s order v = Done (match l with [] => n0 | _ => (n0 + foldl nadd n0 (map widen l))%num end) /\
  vsum_sq_prec32 widen s order v = Done (match l with [] => n0 | _ => (n0 + foldl nadd n0 (map (fun x => widen x * widen x) l))%num end).
Proof.
  intros Hv Hw. unfold vstatistics_prec32, vstatistics, vstatistics_split_prec32, vstatistics_split, vsum_prec32, vsum_sq_prec32.
  rewrite (vdata_slice v l Hv), (vdata_slice w _ Hw), !bind_Done, !get_chunked_small.
  split_and!.
  - destruct l as [|x l]; [reflexivity|]. cbn [map]. unfold real_piece. rewrite !bind_Done, widened_worker_map. reflexivity.
  - intros k. rewrite !bind_Done, !get_chunked_small. destruct (k =? 0)%nat; [reflexivity|]. destruct (STATS_VEC_CAPACITY <? k)%nat; [reflexivity|].
    destruct l as [|x l]; [reflexivity|]. cbn [map]. unfold real_piece. rewrite widened_split_worker_map. reflexivity.
  - destruct l as [|x l]; [reflexivity|]. rewrite !bind_Done. rewrite (foldl_map_add widen nadd). reflexivity.
  - destruct l as [|x l]; [reflexivity|]. rewrite !bind_Done. cbv zeta. rewrite (foldl_map_add (fun n => (widen n * widen n)%num) nadd). reflexivity.
Qed.

Lemma prec32_complex s order s' order' (v : dvec A) (w : dvec B) c :
  vdata v = Done (complex_to_array c) -> vdata w = Done (complex_to_array (map (widen_complex widen) c)) ->
  vstatistics_prec32_complex widen s order v = vstatistics_complex s' order' w /\
  (forall k, vstatistics_split_prec32_complex widen s order v k = vstatistics_split_complex s' order' w k) /\
  vsum_prec32_complex widen s order v = Done (match c with [] => (n0, n0) | _ => cadd (n0, n0) (foldl cadd (n0, n0) (map (widen_complex widen) c)) end) /\
  vsum_sq_prec32_complex widen s order v = Done (match c with [] => (n0, n0) | _ =>
    cadd (n0, n0) (foldl cadd (n0, n0) (map (fun x => cmul (widen_complex widen x) (widen_complex widen x)) c)) end).
Proof.
  intros Hv Hw. unfold vstatistics_prec32_complex, vstatistics_complex, vstatistics_split_prec32_complex, vstatistics_split_complex, vsum_prec32_complex, vsum_sq_prec32_complex.
  rewrite (vdata_slice v _ Hv), (vdata_slice w _ Hw), !bind_Done, !get_chunked_small.
  destruct c as [|[x y] c].
  { split_and!; reflexivity. }
  set (l := (x, y) :: c) in *. assert (E : exists a r, complex_to_array l = a :: r) by (by do 2 eexists).
  assert (E' : exists a r, complex_to_array (map (widen_complex widen) l) = a :: r) by (by do 2 eexists).
  destruct E as (a & r & E). destruct E' as (a' & r' & E'). split_and!.
  - rewrite E, E'. rewrite <- E, <- E'. unfold complex_piece. rewrite !array_to_complex_Done, !bind_Done, widened_worker_map. reflexivity.
  - intros k. rewrite !bind_Done, !get_chunked_small. destruct (k =? 0)%nat; [reflexivity|]. destruct (STATS_VEC_CAPACITY <? k)%nat; [reflexivity|].
    rewrite E, E'. rewrite <- E, <- E'. unfold complex_piece. rewrite !array_to_complex_Done, !bind_Done, widened_split_worker_map. reflexivity.
  - rewrite E, <- E. rewrite !array_to_complex_Done, !bind_Done. rewrite (foldl_map_add (widen_complex widen) cadd). reflexivity.
  - rewrite E, <- E. rewrite !array_to_complex_Done, !bind_Done. cbv zeta.
    rewrite (foldl_map_add (fun n => cmul (widen_complex widen n) (widen_complex widen n)) cadd). reflexivity.
Qed.
End f32.

(** ** f64 *)
Definition f64_usual (x : R) : Prop := generic_format radix2 f64_exp x.
Local Instance f64_digits : Prec_gt_0 53.
Proof. done. Qed.
Lemma f64_unit : u_ro radix2 53 = / 2 ^ 53.
Proof.
  unfold u_ro. change (bpow radix2 (- (53) + 1)) with (/ IZR 4503599627370496). rewrite <- Rinv_mult. f_equal. rewrite <- mult_IZR.
  rewrite pow_IZR. reflexivity.
Qed.
Lemma f64_round_usual x : f64_usual (f64_round x).
Proof. apply generic_format_round; [apply FLT_exp_valid; done|apply valid_rnd_N]. Qed.
Lemma f64_round_same x : f64_usual x -> f64_round x = x.
Proof. intros Hx. apply round_generic; [apply valid_rnd_N|exact Hx]. Qed.
Lemma f64_usual_0 : f64_usual 0. Proof. apply generic_format_0. Qed.
Lemma f64_usual_opp x : f64_usual x -> f64_usual (- x). Proof. apply generic_format_opp. Qed.

Lemma f64_rounds : @rounds R f64_num (fun x => x) f64_usual (/ 2 ^ 53).
Proof.
  split; cbn [n0 nadd nsub f64_num].
  - split; [apply f64_usual_0|reflexivity].
  - intros x y Hx Hy. split; [apply f64_round_usual|].
    destruct (FLT_plus_error_N_ex radix2 (-1074) 53 (fun z => negb (Z.even z)) x y Hx Hy) as (eps & He & E).
    change (round radix2 (FLT_exp (-1074) 53) (Znearest (fun z => negb (Z.even z))) (x + y)) with (f64_round (x + y)) in E. rewrite E.
    replace ((x + y) * (1 + eps) - (x + y)) with (eps * (x + y)) by ring. rewrite Rabs_mult. apply Rmult_le_compat_r; [apply Rabs_pos|].
    apply (Rle_trans _ _ _ He). rewrite <- f64_unit. apply u_rod1pu_ro_le_u_ro.
  - intros x y Hx Hy. split; [apply f64_round_usual|].
    destruct (FLT_plus_error_N_ex radix2 (-1074) 53 (fun z => negb (Z.even z)) x (- y) Hx (f64_usual_opp y Hy)) as (eps & He & E).
    change (round radix2 (FLT_exp (-1074) 53) (Znearest (fun z => negb (Z.even z))) (x + - y)) with (f64_round (x - y)) in E. rewrite E.
    replace ((x + - y) * (1 + eps) - (x - y)) with (eps * (x - y)) by ring. rewrite Rabs_mult. apply Rmult_le_compat_r; [apply Rabs_pos|].
    apply (Rle_trans _ _ _ He). rewrite <- f64_unit. apply u_rod1pu_ro_le_u_ro.
Qed.

Lemma f64_small_unit : 0 <= / 2 ^ 53 <= / 1024.
Proof.
  rewrite <- f64_unit. unfold u_ro. change (bpow radix2 (- (53) + 1)) with (/ IZR 4503599627370496). lra.
Qed.

(** A number which is absorbed: 2^53 + 1/2 is 2^53 *)
Definition big : R := IZR (2 ^ 53).
Lemma big_usual : f64_usual big.
Proof. change big with (bpow radix2 53). apply generic_format_bpow. done. Qed.
Lemma half_usual : f64_usual (/ 2).
Proof. change (/ 2) with (bpow radix2 (-1)). apply generic_format_bpow. done. Qed.
Lemma half_absorbed : f64_round (big + / 2) = big.
Proof.
  assert (Hb : 0 < big) by (change big with (bpow radix2 53); apply bpow_gt_0).
  apply Rle_antisym.
  - apply (@round_N_le_midp radix2 f64_exp (FLT_exp_valid (-1074) 53)); [exact big_usual|].
    rewrite (@succ_eq_pos radix2 f64_exp) by lra. change big with (bpow radix2 53) at 4. rewrite (@ulp_bpow radix2 f64_exp).
    change (bpow radix2 (f64_exp (53 + 1))) with 2. lra.
  - rewrite <- (f64_round_same big big_usual) at 1. apply round_le; [apply FLT_exp_valid; done|apply valid_rnd_N|lra].
Qed.

Lemma absorbed_many n : foldl (@nadd R f64_num) big (replicate n (/ 2)) = big.
Proof. induction n as [|n IH]; [reflexivity|]. cbn [replicate foldl]. change (@nadd R f64_num big (/ 2)) with (f64_round (big + / 2)). by rewrite half_absorbed. Qed.
Lemma plain_absorbed n : foldl (@nadd R f64_num) (@n0 R f64_num) (big :: replicate n (/ 2)) = big.
Proof.
  cbn [foldl]. change (@nadd R f64_num (@n0 R f64_num) big) with (f64_round (0 + big)). rewrite Rplus_0_l, (f64_round_same _ big_usual). apply absorbed_many.
Qed.

(** The compensation of one bucket ends up in the next one. *)
Lemma split_worker_prec_four {P} `{StatOps P} (a b c d : P) :
  let y1 := t_sub a t_zero in let t1 := t_add t_zero y1 in let c1 := t_sub (t_sub t1 t_zero) y1 in
  let y2 := t_sub b c1 in let t2 := t_add t_zero y2 in let c2 := t_sub (t_sub t2 t_zero) y2 in
  let y3 := t_sub c c2 in let t3 := t_add t1 y3 in let c3 := t_sub (t_sub t3 t1) y3 in
  exists r0 r1, split_worker_prec 2 0 [a; b; c; d] = Done [r0; r1] /\ st_sum r0 = t3 /\ st_sum r1 = t_add t2 (t_sub d c3).
Proof. cbv zeta. do 2 eexists. split_and!; [reflexivity|reflexivity|reflexivity]. Qed.

Lemma split_prec_mixes s order (v : dvec R) x y : reals v [x; 0; y; 0] -> f64_usual x -> f64_usual y -> f64_round (x + y) = x ->
  exists st0 st1, @vstatistics_split_prec R f64_num f64_flt s order v 2 = Done (Ok [st0; st1]) /\ st_sum st1 = y.
Proof.
  intros [_ Hv] Hx Hy Hxy. unfold vstatistics_split_prec. change (2 =? 0)%nat with false. change (STATS_VEC_CAPACITY <? 2)%nat with false. cbv iota.
  rewrite (vdata_slice v _ Hv), bind_Done, get_chunked_small. unfold real_piece. cbn [fst].
  destruct (@split_worker_prec_four R (@real_stats R f64_num f64_flt) x 0 y 0) as (r0 & r1 & E & _ & E1). rewrite E. rewrite !bind_Done.
  rewrite merge_cols_one by (cbn; lia). rewrite bind_Done. cbn [map]. do 2 eexists. split; [reflexivity|]. unfold finished. cbn [st_sum]. rewrite E1.
  cbn [t_add t_sub t_zero real_stats nadd nsub n0 f64_num].
  assert (Z0 : f64_round 0 = 0) by (apply f64_round_same, f64_usual_0).
  assert (Xx : x - x = 0) by ring.
  repeat progress (rewrite ?Rminus_0_r, ?Rplus_0_l, ?Z0, ?(f64_round_same x Hx), ?(f64_round_same y Hy), ?Hxy, ?Xx).
  rewrite !Rminus_0_l. rewrite !(f64_round_same (- y) (f64_usual_opp y Hy)). rewrite Ropp_involutive.
  by rewrite !(f64_round_same y Hy).
Qed.

(** Plain sums in f64 *)
Lemma plain_finished {A} `{Num A} (val : A -> R) usual u (l : list A) : rounds val usual u -> 0 <= u -> INR (length l + 1) * u <= 1 -> (forall x, x ∈ l -> usual x) ->
  within u (2 * INR (length l + 1)) (map val l) (val (n0 + foldl nadd n0 l)%num).
Proof.
  intros HR Hu Hn Hl. destruct (plain_steps val usual u HR l Hu Hl) as [U1 HE]. destruct (r_zero _ _ _ HR) as [Uz Vz].
  destruct (r_add _ _ _ HR n0 (foldl nadd n0 l) Uz U1) as [_ Es]. rewrite Vz, Rplus_0_l in Es. unfold within.
  pose proof (pow_small u (length l + 1) Hu Hn) as Hp. rewrite Nat.add_1_r in Hp |- *. cbn [Rpow_def.pow] in Hp.
  pose proof (Rsum_abs_le (map val l)) as Hle. pose proof (Rsum_abs_pos (map val l)) as Hb.
  set (b := Rsum (map Rabs (map val l))) in *. set (t := Rsum (map val l)) in *. set (s := val (foldl nadd n0 l)) in *.
  set (s' := val (n0 + foldl nadd n0 l)%num) in *. set (p := (1 + u) ^ length l) in *. clearbody b t s s' p.
  assert (Hs : Rabs s <= p * b). { replace s with ((s - t) + t) by ring. pose proof (Rabs_triang (s - t) t). lra. }
  assert (u * Rabs s <= u * (p * b)) by (apply Rmult_le_compat_l; lra).
  assert (Q : ((1 + u) * p - 1) * b <= 2 * INR (S (length l)) * u * b) by (apply Rmult_le_compat_r; lra).
  replace (s' - t) with ((s' - s) + (s - t)) by ring. pose proof (Rabs_triang (s' - s) (s - t)). lra.
Qed.
