(** C64: the approximated functions of the SSE2 and AVX builds *)
From Verif Require Import Proof_ElemOps Proof_Approx Proof_PolyVec Nums NumsR NumsTrig.
From Coq Require Import Reals Lra ZArith.
Local Open Scope R_scope.

(** * C64 The polynomial approximations have the errors which are documented for them *)

(** The method over the real numbers with the exponent range [b] (127 for f32, 1023 for f64). The constants of the program are taken as they are written, the
    rounding of the operations is left out. *)
Definition approximate (b : Z) (M : Math R) : approximation R -> reg_type -> nat -> settings -> list nat -> dvec R -> run (dvec R) :=
  @vapprox_simd R Rnum Rflt (Rbits b) M.

(** Natural logarithm: the error is at most 0.0139 for all positive normalised numbers, *)
Theorem C64_ln : forall b M, (1 <= b <= 1023)%Z -> exact_math M -> forall r addr s sched (v : dvec R) l,
  reg_ok r -> elem_aligned r addr -> address_ok r addr v -> reals v l -> (forall x, x ∈ l -> normalised b x) ->
  exists v' l', approximate b M Ln_approx r addr s sched v = Done v' /\ reals v' l' /\ all_pairs (fun x y => off_by (139 / 10000) (ln x) y) l l' /\
    same_meta v v' /\ same_rest v v'.
Proof.
  intros b M Hb (HL & _) r addr s sched v l Hr Ha Hok Hv Hl. apply (vapprox_simd_all b); try assumption; intros x Hx.
  - cbn [by_way_of_ln stands_for]. rewrite HL. apply off_by_self. lra.
  - apply (ln_lane_abs b); [assumption | by apply Hl].
Qed.
Print Assumptions C64_ln.

(** at most 5E-7 if the mantissa is not above the square root of two, *)
Theorem C64_ln_fine : forall b M, (1 <= b <= 1023)%Z -> exact_math M -> forall r addr s sched (v : dvec R) l,
  reg_ok r -> elem_aligned r addr -> address_ok r addr v -> reals v l ->
  (forall x, x ∈ l -> normalised b x /\ exists e m, x = powerRZ 2 e * m /\ 1 <= m <= 14142 / 10000) ->
  exists v' l', approximate b M Ln_approx r addr s sched v = Done v' /\ reals v' l' /\ all_pairs (fun x y => off_by (5 / 10000000) (ln x) y) l l'.
Proof.
  intros b M Hb (HL & _) r addr s sched v l Hr Ha Hok Hv Hl.
  destruct (vapprox_simd_all b Ln_approx (fun x y => off_by (5 / 10000000) (ln x) y) r addr s sched v l) as (v' & l' & K1 & K2 & K3 & _); try assumption.
  - intros x Hx. cbn [by_way_of_ln stands_for]. rewrite HL. apply off_by_self. lra.
  - intros x Hx. destruct (Hl x Hx) as (Hn & e & m & Ex & Hm). apply (ln_lane_fine b x e (m - 1)); [assumption | assumption | | lra].
    rewrite Ex. f_equal. lra.
  - exists v', l'. split; [exact K1|]. split; [exact K2 | exact K3].
Qed.
Print Assumptions C64_ln_fine.

(** and, as documented, at most 1% for numbers from 1 on - except between 15/8 and 2. The same holds for the logarithm to another base. *)
Theorem C64_log : forall b M, (1 <= b <= 1023)%Z -> exact_math M -> forall base r addr s sched (v : dvec R) l, 0 < base -> base <> 1 ->
  reg_ok r -> elem_aligned r addr -> address_ok r addr v -> reals v l -> (forall x, x ∈ l -> normalised b x /\ 1 <= x /\ (x <= 15 / 8 \/ 2 <= x)) ->
  (exists v' l', approximate b M Ln_approx r addr s sched v = Done v' /\ reals v' l' /\ all_pairs (fun x y => off_by_rel (1 / 100) (ln x) y) l l') /\
  (exists v' l', approximate b M (Log_approx base) r addr s sched v = Done v' /\ reals v' l' /\
    all_pairs (fun x y => off_by_rel (1 / 100) (ln x / ln base) y) l l').
Proof.
  intros b M Hb (HL & _) base r addr s sched v l Hb0 Hb1 Hr Ha Hok Hv Hl.
  assert (Hl0 : ln base <> 0) by (intros E; apply Hb1; rewrite <- (exp_ln base Hb0), E; apply exp_0). split.
  - destruct (vapprox_simd_all b Ln_approx (fun x y => off_by_rel (1 / 100) (ln x) y) r addr s sched v l) as (v' & l' & K1 & K2 & K3 & _); try assumption.
    + intros x Hx. cbn [by_way_of_ln stands_for]. rewrite HL. apply off_by_rel_self. lra.
    + intros x Hx. destruct (Hl x Hx) as (Hn & H1 & H2). by apply (ln_lane_rel b).
    + exists v', l'. split; [exact K1|]. split; [exact K2 | exact K3].
  - destruct (vapprox_simd_all b (Log_approx base) (fun x y => off_by_rel (1 / 100) (ln x / ln base) y) r addr s sched v l) as (v' & l' & K1 & K2 & K3 & _); try assumption.
    + intros x Hx. cbn [by_way_of_ln stands_for]. rewrite !HL. apply off_by_rel_self. lra.
    + intros x Hx. destruct (Hl x Hx) as (Hn & H1 & H2). cbn [lane_of]. rewrite HL. by apply (log_lane_rel b).
    + exists v', l'. split; [exact K1|]. split; [exact K2 | exact K3].
Qed.
Print Assumptions C64_log.

(** The registers of numbers from 1.95 to 2 have a larger error than documented (the threshold of the program is the square root of 2 where the one of 1/2 was
    meant, thus the polynomial is evaluated outside of the interval it was made for). Shown for the first element, if it is in a register. *)
Theorem C64_ln_refuted : forall b M, (1 <= b <= 1023)%Z -> exact_math M -> forall r addr s sched (v : dvec R) l x,
  reg_ok r -> elem_aligned r addr -> address_ok r addr v -> reals v l -> addr mod reg_bytes r = 0%nat -> (reg_len r <= length l)%nat ->
  l !! 0%nat = Some x -> 195 / 100 <= x < 2 ->
  exists v' l' y, approximate b M Ln_approx r addr s sched v = Done v' /\ reals v' l' /\ l' !! 0%nat = Some y /\ ~ off_by_rel (1 / 100) (ln x) y.
Proof.
  intros b M Hb _ r addr s sched v l x Hr Ha Hok Hv Had Hlen Hx Hx2.
  destruct (first_in_register (H1 := Rbits b) Ln_approx r addr s sched v l x Hr Ha Hok Hv Had Hlen Hx) as (v' & l' & D & Hd & Hy).
  exists v', l', (@ln_lane R Rnum Rflt (Rbits b) x). split; [exact D|]. split; [exact Hd|]. split; [exact Hy|].
  pose proof (ln_lane_bad b x Hb Hx2) as Hbad. unfold off_by_rel. intros Hc.
  pose proof (Rle_abs (@ln_lane R Rnum Rflt (Rbits b) x - ln x)) as Hab. unfold bits_ln in Hbad. lra.
Qed.
Print Assumptions C64_ln_refuted.

(** Which result a number has depends on its position: the elements behind the last register have no error. *)
Theorem C64_position_refuted : forall b M, (1 <= b <= 1023)%Z -> exact_math M -> forall r addr s sched (v : dvec R) x,
  reg_ok r -> elem_aligned r addr -> address_ok r addr v -> addr mod reg_bytes r = 0%nat -> (2 <= reg_len r)%nat ->
  195 / 100 <= x < 2 -> reals v (replicate (S (reg_len r)) x) ->
  exists v' l' y, approximate b M Ln_approx r addr s sched v = Done v' /\ reals v' l' /\ l' !! 0%nat = Some y /\ l' !! reg_len r = Some (ln x) /\ y <> ln x.
Proof.
  intros b M Hb (HL & _) r addr s sched v x Hr Ha Hok Had Hlen Hx2 Hv.
  destruct (last_behind_register (H1 := Rbits b) Ln_approx r addr s sched v x Hr Ha Hok Had Hlen Hv) as (v' & l' & D & Hd & Hy & Hz).
  exists v', l', (@ln_lane R Rnum Rflt (Rbits b) x). split; [exact D|]. split; [exact Hd|]. split; [exact Hy|].
  split; [rewrite Hz; cbn [by_way_of_ln stands_for]; by rewrite HL|].
  pose proof (ln_lane_bad b x Hb Hx2) as Hbad. unfold bits_ln in Hbad. intros E. rewrite E in Hbad.
  assert (0 <= 1 / 100 * Rabs (ln x)) by (apply Rmult_le_pos; [lra | apply Rabs_pos]). lra.
Qed.
Print Assumptions C64_position_refuted.

(** The logarithm of a number which isn't positive is not a number, in every number type. *)
Theorem C64_ln_of_negative : forall {A} `{Num A} `{Flt A} `{Bits A} `{Math A} r addr s sched (v : dvec A) l x,
  reg_ok r -> elem_aligned r addr -> address_ok r addr v -> reals v l -> addr mod reg_bytes r = 0%nat -> (reg_len r <= length l)%nat ->
  l !! 0%nat = Some x -> nltb n0 x = false ->
  exists v' l', vapprox_simd Ln_approx r addr s sched v = Done v' /\ reals v' l' /\ l' !! 0%nat = Some nnan.
Proof.
  intros A HN HF HB HM r addr s sched v l x Hr Ha Hok Hv Had Hlen Hx Hn.
  destruct (first_in_register Ln_approx r addr s sched v l x Hr Ha Hok Hv Had Hlen Hx) as (v' & l' & D & Hd & Hy).
  exists v', l'. split; [exact D|]. split; [exact Hd|]. rewrite Hy. cbn [lane_of]. unfold ln_lane. rewrite Hn. reflexivity.
Qed.
Print Assumptions C64_ln_of_negative.

(** Exponential functions: the relative error is at most 2E-8 as long as the exponent is between -87 and 87. *)
Theorem C64_exp : forall b M, (127 <= b)%Z -> exact_math M -> forall r addr s sched (v : dvec R) l,
  reg_ok r -> elem_aligned r addr -> address_ok r addr v -> reals v l -> (forall x, x ∈ l -> Rabs x <= 87) ->
  exists v' l', approximate b M Exp_approx r addr s sched v = Done v' /\ reals v' l' /\ all_pairs (fun x y => off_by_rel (2 / 100000000) (exp x) y) l l' /\
    same_meta v v' /\ same_rest v v'.
Proof.
  intros b M Hb (_ & HE & _) r addr s sched v l Hr Ha Hok Hv Hl. apply (vapprox_simd_all b); try assumption; intros x Hx.
  - cbn [by_way_of_ln stands_for]. rewrite HE. apply off_by_rel_self. lra.
  - apply (exp_lane_87 b); [assumption | by apply Hl].
Qed.
Print Assumptions C64_exp.
Theorem C64_expf : forall b M, (127 <= b)%Z -> exact_math M -> forall base r addr s sched (v : dvec R) l, 0 < base ->
  reg_ok r -> elem_aligned r addr -> address_ok r addr v -> reals v l -> (forall x, x ∈ l -> Rabs (x * ln base) <= 87) ->
  exists v' l', approximate b M (Expf_approx base) r addr s sched v = Done v' /\ reals v' l' /\
    all_pairs (fun x y => off_by_rel (2 / 100000000) (Rpower base x) y) l l' /\ same_meta v v' /\ same_rest v v'.
Proof.
  intros b M Hb (HL & HE & _) base r addr s sched v l Hb0 Hr Ha Hok Hv Hl. apply (vapprox_simd_all b); try assumption; intros x Hx.
  - cbn [by_way_of_ln stands_for]. rewrite HE, HL. unfold Rpower. cbn [nmul Rnum]. rewrite (Rmult_comm (ln base)). apply off_by_rel_self. lra.
  - cbn [lane_of]. rewrite HL. unfold Rpower. cbn [nmul Rnum]. rewrite (Rmult_comm (ln base)). apply (exp_lane_87 b); [assumption | by apply Hl].
Qed.
Print Assumptions C64_expf.

(** The exponent is limited to 88.376, which for f64 is far below the largest result: numbers from 90 on have less than half of the value they should have. *)
Theorem C64_exp_refuted : forall M, exact_math M -> forall r addr s sched (v : dvec R) l x,
  reg_ok r -> elem_aligned r addr -> address_ok r addr v -> reals v l -> addr mod reg_bytes r = 0%nat -> (reg_len r <= length l)%nat ->
  l !! 0%nat = Some x -> 90 <= x ->
  exists v' l' y, approximate 1023 M Exp_approx r addr s sched v = Done v' /\ reals v' l' /\ l' !! 0%nat = Some y /\ 0 < y <= exp x / 2.
Proof.
  intros M _ r addr s sched v l x Hr Ha Hok Hv Had Hlen Hx Hx2.
  destruct (first_in_register (H1 := Rbits 1023) Exp_approx r addr s sched v l x Hr Ha Hok Hv Had Hlen Hx) as (v' & l' & D & Hd & Hy).
  exists v', l', (@exp_lane R Rnum (Rbits 1023) x). split; [exact D|]. split; [exact Hd|]. split; [exact Hy|]. exact (exp_lane_bad 1023 x ltac:(lia) Hx2).
Qed.
Print Assumptions C64_exp_refuted.

(** Powers: the error of the logarithm is multiplied with the exponent. *)
Theorem C64_powf : forall b M, (127 <= b <= 1023)%Z -> exact_math M -> forall p r addr s sched (v : dvec R) l,
  reg_ok r -> elem_aligned r addr -> address_ok r addr v -> reals v l ->
  (forall x, x ∈ l -> normalised b x /\ Rabs (p * ln x) + 139 / 10000 * Rabs p <= 87) ->
  exists v' l', approximate b M (Powf_approx p) r addr s sched v = Done v' /\ reals v' l' /\
    all_pairs (fun x y => (1 - 2 / 100000000) * exp (- (139 / 10000 * Rabs p)) * Rpower x p <= y <= (1 + 2 / 100000000) * exp (139 / 10000 * Rabs p) * Rpower x p) l l' /\
    same_meta v v' /\ same_rest v v'.
Proof.
  intros b M Hb (HL & HE & _) p r addr s sched v l Hr Ha Hok Hv Hl. apply (vapprox_simd_all b); try assumption; intros x Hx.
  - cbn [by_way_of_ln stands_for]. rewrite HE, HL. cbn [nmul Rnum]. unfold Rpower. rewrite (Rmult_comm (ln x)). set (a := exp (p * ln x)).
    assert (Ha0 : 0 < a) by apply exp_pos. set (d := 139 / 10000 * Rabs p). assert (Hd : 0 <= d) by (unfold d; apply Rmult_le_pos; [lra | apply Rabs_pos]).
    assert (H1 : exp (- d) <= 1) by (rewrite <- exp_0; destruct Hd as [Hd|Hd]; [left; apply exp_increasing; lra | rewrite <- Hd, Ropp_0; lra]).
    pose proof (exp_pos (- d)). pose proof (exp_ineq1_le d).
    assert ((1 - 2 / 100000000) * exp (- d) <= 1) by lra. assert (1 <= (1 + 2 / 100000000) * exp d) by lra.
    split; [replace a with (1 * a) at 2 by lra | replace a with (1 * a) at 1 by lra]; apply Rmult_le_compat_r; lra.
  - destruct (Hl x Hx) as [Hn Hp]. pose proof (pow_lane b x p Hb Hn Hp) as [Hlo Hhi]. cbn [lane_of nmul Rnum]. unfold Rpower.
    split.
    + eapply Rle_trans; [|exact Hlo]. right. replace (p * ln x - 139 / 10000 * Rabs p) with (p * ln x + - (139 / 10000 * Rabs p)) by lra. rewrite exp_plus. ring.
    + eapply Rle_trans; [exact Hhi|]. right. rewrite exp_plus. ring.
Qed.
Print Assumptions C64_powf.

(** Sine and cosine: the error is at most 1E-8 up to one billion (documented: 1E-6). *)
Theorem C64_sin : forall b M, exact_math M -> forall r addr s sched (v : dvec R) l,
  reg_ok r -> elem_aligned r addr -> address_ok r addr v -> reals v l -> (forall x, x ∈ l -> Rabs x <= 1000000000) ->
  exists v' l', approximate b M Sin_approx r addr s sched v = Done v' /\ reals v' l' /\ all_pairs (fun x y => off_by (1 / 100000000) (sin x) y) l l' /\
    same_meta v v' /\ same_rest v v'.
Proof.
  intros b M (_ & _ & HS & _) r addr s sched v l Hr Ha Hok Hv Hl. apply (vapprox_simd_all b); try assumption; intros x Hx.
  - cbn [by_way_of_ln stands_for]. rewrite HS. apply off_by_self. lra.
  - apply (sin_lane_abs b). by apply Hl.
Qed.
Print Assumptions C64_sin.
Theorem C64_cos : forall b M, exact_math M -> forall r addr s sched (v : dvec R) l,
  reg_ok r -> elem_aligned r addr -> address_ok r addr v -> reals v l -> (forall x, x ∈ l -> Rabs x <= 1000000000) ->
  exists v' l', approximate b M Cos_approx r addr s sched v = Done v' /\ reals v' l' /\ all_pairs (fun x y => off_by (1 / 100000000) (cos x) y) l l' /\
    same_meta v v' /\ same_rest v v'.
Proof.
  intros b M (_ & _ & _ & HC) r addr s sched v l Hr Ha Hok Hv Hl. apply (vapprox_simd_all b); try assumption; intros x Hx.
  - cbn [by_way_of_ln stands_for]. rewrite HC. apply off_by_self. lra.
  - apply (cos_lane_abs b). by apply Hl.
Qed.
Print Assumptions C64_cos.

(** Complex vectors have no approximations. *)
Theorem C64_complex : forall {A} `{Num A} `{Flt A} `{Bits A} `{Math A} f r addr s sched (v : dvec A), is_complex v = true ->
  exists v', vapprox_simd f r addr s sched v = Done v' /\ poisoned v'.
Proof. intros A HN HF HB HM f r addr s sched v Hc. unfold vapprox_simd. rewrite Hc. eexists. split; [reflexivity | done]. Qed.
Print Assumptions C64_complex.

(** The hypotheses can be met: a vector of f64 numbers at the start of a register, with one element behind it. *)
Local Instance ex_math_poly : Math R := {| rmath := fun f => match f with Ln => ln | Exp => exp | Sin => sin | _ => cos end; cmath := fun _ x => x;
  rpowf := Rpower; cpowf := fun x _ => x; rlog := fun x b => ln x / ln b; clog := fun x _ => x; cexpf := fun x _ => x |}.
Example C64_example : let v : dvec R := DVec (Storage KVec 4 [196 / 100; 196 / 100; 196 / 100; 7]) 1 DTime NReal 3 in
  exact_math ex_math_poly /\ reg_ok f64x2 /\ elem_aligned f64x2 32 /\ address_ok f64x2 32 v /\ reals v (replicate (S (reg_len f64x2)) (196 / 100)) /\
  32 mod reg_bytes f64x2 = 0%nat /\ (2 <= reg_len f64x2)%nat /\ normalised 1023 (196 / 100) /\ normalised 127 (196 / 100).
Proof.
  intros v. assert (Hn : forall b, (1 <= b)%Z -> normalised b (196 / 100)).
  { intros b Hb. pose proof ln2_pos. split.
    - apply Rle_trans with 1; [|lra]. rewrite pow2_exp, <- exp_0. assert (IZR (1 - b) <= 0) by (apply IZR_le; lia).
      assert (Hz : IZR (1 - b) * ln 2 <= 0) by nra. destruct Hz as [Hz|Hz]; [left; by apply exp_increasing | rewrite Hz; lra].
    - rewrite pow2_add. change (powerRZ 2 1) with (2 * 1). assert (1 <= powerRZ 2 b); [|lra].
      rewrite pow2_exp, <- exp_0. assert (0 < IZR b) by (apply IZR_lt; lia). left. apply exp_increasing. nra. }
  split; [split_and!; reflexivity|]. split; [vm_compute; auto with lia|]. split; [reflexivity|]. split; [left; by vm_compute|].
  split; [split; reflexivity|]. split; [reflexivity|]. split; [cbn; lia|]. split; apply Hn; lia.
Qed.
Example C64_example_wide : Rabs (-20) <= 87 /\ Rabs (123456) <= 1000000000 /\ 90 <= 700 /\ Rabs (2 * ln 1) + 139 / 10000 * Rabs 2 <= 87.
Proof.
  rewrite ln_1, Rmult_0_r, Rabs_R0. replace (-20) with (- (20)) by lra. rewrite Rabs_Ropp, !Rabs_pos_eq by lra. lra.
Qed.
