(** Bounds of polynomials with rational coefficients on an interval, by interval arithmetic and bisection. *)
From stdpp Require Import tactics.
From Coq Require Import QArith Qreals Reals Lra Lia List.
Import ListNotations.
Local Open Scope R_scope.

(** The value of the polynomial with coefficients [p] (the constant first) *)
Fixpoint peval (p : list Q) (x : R) : R := match p with [] => 0 | c :: p => Q2R c + x * peval p x end.

(** Fixed point numbers: integers in units of 2^-80. The bounds are rounded outwards, which keeps the numbers short. *)
Definition bits : Z := 80.
Definition unit : Z := Eval vm_compute in (2 ^ bits)%Z.
Definition down (q : Q) : Z := (Qnum q * unit / Zpos (Qden q))%Z.
Definition up (q : Q) : Z := (- (- Qnum q * unit / Zpos (Qden q)))%Z.
Definition scaled_down (z : Z) : Z := Z.shiftr z bits.
Definition scaled_up (z : Z) : Z := (- Z.shiftr (- z) bits)%Z.

(** Bounds of the polynomial, whose coefficients are given by bounds, between [lo] and [hi] *)
Fixpoint ieval (p : list (Z * Z)) (lo hi : Z) : Z * Z :=
  match p with
  | [] => (0, 0)%Z
  | (cl, ch) :: p =>
      let '(l, h) := ieval p lo hi in
      let a := (lo * l)%Z in let b := (lo * h)%Z in let d := (hi * l)%Z in let e := (hi * h)%Z in
      ((cl + scaled_down (Z.min (Z.min a b) (Z.min d e)))%Z, (ch + scaled_up (Z.max (Z.max a b) (Z.max d e)))%Z)
  end.

(** Does the polynomial stay between [bl] and [bh] on the interval? *)
Fixpoint stays (p : list (Z * Z)) (lo hi bl bh : Z) (depth : nat) : bool :=
  if (let '(l, h) := ieval p lo hi in if Z.leb bl l then Z.leb h bh else false) then true
  else match depth with
  | O => false
  | S d => let m := Z.shiftr (lo + hi) 1 in if stays p lo m bl bh d then stays p m hi bl bh d else false
  end.
Definition between (p : list Q) (lo hi bl bh : Q) (depth : nat) : bool :=
  stays (map (fun c => (down c, up c)) p) (down lo) (up hi) (up bl) (down bh) depth.

Lemma Q2R_le a b : Qle_bool a b = true -> Q2R a <= Q2R b.
Proof. intros H. apply Qle_Rle. by apply Qle_bool_iff. Qed.
Lemma Q2R_le_false a b : Qle_bool a b = false -> Q2R b <= Q2R a.
Proof.
  intros H. apply Qle_Rle. destruct (Qlt_le_dec a b) as [Hl|Hl]; [|done].
  exfalso. apply Qlt_le_weak, Qle_bool_iff in Hl. congruence.
Qed.
Lemma unit_pos : 0 < IZR unit.
Proof. apply IZR_lt. reflexivity. Qed.
Lemma unit_pow : unit = (2 ^ bits)%Z.
Proof. reflexivity. Qed.
Lemma IZR_min a b : IZR (Z.min a b) = Rmin (IZR a) (IZR b).
Proof.
  destruct (Z.le_ge_cases a b) as [Hl|Hl].
  - rewrite Z.min_l by done. symmetry. apply Rmin_left. by apply IZR_le.
  - rewrite Z.min_r by done. symmetry. apply Rmin_right. by apply IZR_le.
Qed.
Lemma IZR_max a b : IZR (Z.max a b) = Rmax (IZR a) (IZR b).
Proof.
  destruct (Z.le_ge_cases a b) as [Hl|Hl].
  - rewrite Z.max_r by done. symmetry. apply Rmax_right. by apply IZR_le.
  - rewrite Z.max_l by done. symmetry. apply Rmax_left. by apply IZR_le.
Qed.
Lemma div_le a n : (0 < n)%Z -> IZR (a / n) * IZR n <= IZR a.
Proof. intros Hn. rewrite <- mult_IZR. apply IZR_le. rewrite Z.mul_comm. apply Z.mul_div_le. lia. Qed.
Lemma down_le q : IZR (down q) <= Q2R q * IZR unit.
Proof.
  unfold down, Q2R. pose proof (div_le (Qnum q * unit) (Zpos (Qden q)) ltac:(lia)) as H. rewrite mult_IZR in H.
  assert (Hd : 0 < IZR (Zpos (Qden q))) by (apply IZR_lt; lia).
  apply (Rmult_le_reg_r (IZR (Zpos (Qden q)))); [done|].
  replace (IZR (Qnum q) * / IZR (Zpos (Qden q)) * IZR unit * IZR (Zpos (Qden q))) with (IZR (Qnum q) * IZR unit) by (field; lra). exact H.
Qed.
Lemma up_ge q : Q2R q * IZR unit <= IZR (up q).
Proof.
  pose proof (down_le (- q)) as H. rewrite Q2R_opp in H. unfold down in H. cbn [Qnum Qden Qopp] in H. unfold up. rewrite opp_IZR. lra.
Qed.
Lemma scaled_down_le z : IZR (scaled_down z) * IZR unit <= IZR z.
Proof. unfold scaled_down. rewrite Z.shiftr_div_pow2 by (unfold bits; lia). rewrite <- unit_pow. apply div_le. reflexivity. Qed.
Lemma scaled_up_ge z : IZR z <= IZR (scaled_up z) * IZR unit.
Proof.
  unfold scaled_up. pose proof (scaled_down_le (- z)) as H. unfold scaled_down in H. rewrite opp_IZR. rewrite opp_IZR in H. lra.
Qed.
Lemma Qred_R a : Q2R (Qred a) = Q2R a.
Proof. apply Qeq_eqR, Qred_correct. Qed.

Lemma mul_bounds lo hi x l h y : lo <= x <= hi -> l <= y <= h ->
  Rmin (Rmin (lo * l) (lo * h)) (Rmin (hi * l) (hi * h)) <= x * y <= Rmax (Rmax (lo * l) (lo * h)) (Rmax (hi * l) (hi * h)).
Proof.
  intros Hx Hy.
  pose proof (Rmin_l (Rmin (lo * l) (lo * h)) (Rmin (hi * l) (hi * h))). pose proof (Rmin_r (Rmin (lo * l) (lo * h)) (Rmin (hi * l) (hi * h))).
  pose proof (Rmin_l (lo * l) (lo * h)). pose proof (Rmin_r (lo * l) (lo * h)). pose proof (Rmin_l (hi * l) (hi * h)). pose proof (Rmin_r (hi * l) (hi * h)).
  pose proof (Rmax_l (Rmax (lo * l) (lo * h)) (Rmax (hi * l) (hi * h))). pose proof (Rmax_r (Rmax (lo * l) (lo * h)) (Rmax (hi * l) (hi * h))).
  pose proof (Rmax_l (lo * l) (lo * h)). pose proof (Rmax_r (lo * l) (lo * h)). pose proof (Rmax_l (hi * l) (hi * h)). pose proof (Rmax_r (hi * l) (hi * h)).
  set (mn := Rmin (Rmin (lo * l) (lo * h)) (Rmin (hi * l) (hi * h))) in *. set (mx := Rmax (Rmax (lo * l) (lo * h)) (Rmax (hi * l) (hi * h))) in *.
  assert (E1 : mn <= lo * y <= mx).
  { destruct (Rle_dec 0 lo); [assert (lo * l <= lo * y <= lo * h) by (split; apply Rmult_le_compat_l; lra); lra|].
    assert (lo * h <= lo * y <= lo * l) by (split; apply Rmult_le_compat_neg_l; lra). lra. }
  assert (E2 : mn <= hi * y <= mx).
  { destruct (Rle_dec 0 hi); [assert (hi * l <= hi * y <= hi * h) by (split; apply Rmult_le_compat_l; lra); lra|].
    assert (hi * h <= hi * y <= hi * l) by (split; apply Rmult_le_compat_neg_l; lra). lra. }
  destruct (Rle_dec 0 y).
  - assert (lo * y <= x * y <= hi * y) by (split; apply Rmult_le_compat_r; lra). lra.
  - assert (hi * y <= x * y <= lo * y).
    { split; rewrite (Rmult_comm _ y), (Rmult_comm _ y); apply Rmult_le_compat_neg_l; lra. }
    lra.
Qed.

Lemma ieval_sound p lo hi x : IZR lo <= x * IZR unit <= IZR hi ->
  IZR (fst (ieval (map (fun c => (down c, up c)) p) lo hi)) <= peval p x * IZR unit <= IZR (snd (ieval (map (fun c => (down c, up c)) p) lo hi)).
Proof.
  intros Hx. pose proof unit_pos as HU. induction p as [|c p IH]; cbn [ieval peval map]; [cbn [fst snd]; lra|].
  destruct (ieval (map (fun c => (down c, up c)) p) lo hi) as [l h]. cbn [fst snd] in *.
  pose proof (mul_bounds _ _ _ _ _ _ Hx IH) as HM. pose proof (down_le c). pose proof (up_ge c). rewrite !plus_IZR.
  set (a := Z.min (Z.min (lo * l) (lo * h)) (Z.min (hi * l) (hi * h))). set (b := Z.max (Z.max (lo * l) (lo * h)) (Z.max (hi * l) (hi * h))).
  assert (Ea : IZR a = Rmin (Rmin (IZR lo * IZR l) (IZR lo * IZR h)) (Rmin (IZR hi * IZR l) (IZR hi * IZR h))) by (unfold a; rewrite !IZR_min, !mult_IZR; reflexivity).
  assert (Eb : IZR b = Rmax (Rmax (IZR lo * IZR l) (IZR lo * IZR h)) (Rmax (IZR hi * IZR l) (IZR hi * IZR h))) by (unfold b; rewrite !IZR_max, !mult_IZR; reflexivity).
  rewrite <- Ea, <- Eb in HM. clear Ea Eb. pose proof (scaled_down_le a). pose proof (scaled_up_ge b). clearbody a b.
  assert (HP : x * IZR unit * (peval p x * IZR unit) = x * peval p x * IZR unit * IZR unit) by ring. rewrite HP in HM.
  assert (IZR (scaled_down a) <= x * peval p x * IZR unit) by (apply (Rmult_le_reg_r (IZR unit)); lra).
  assert (x * peval p x * IZR unit <= IZR (scaled_up b)) by (apply (Rmult_le_reg_r (IZR unit)); lra).
  rewrite Rmult_plus_distr_r. lra.
Qed.

Lemma stays_sound p lo hi bl bh depth x : stays (map (fun c => (down c, up c)) p) lo hi bl bh depth = true -> IZR lo <= x * IZR unit <= IZR hi ->
  IZR bl <= peval p x * IZR unit <= IZR bh.
Proof.
  revert lo hi. induction depth as [|d IH]; intros lo hi Hb Hx; cbn [stays] in Hb;
    pose proof (ieval_sound p lo hi x Hx) as Hi; destruct (ieval (map (fun c => (down c, up c)) p) lo hi) as [l h]; cbn [fst snd] in Hi;
    destruct (Z.leb_spec bl l) as [H1|H1], (Z.leb_spec h bh) as [H2|H2]; try done.
  1, 2: apply IZR_le in H1, H2; lra.
  all: destruct (stays (map (fun c => (down c, up c)) p) lo (Z.shiftr (lo + hi) 1) bl bh d) eqn:H3; [|done];
    destruct (Rle_dec (x * IZR unit) (IZR (Z.shiftr (lo + hi) 1))); [apply (IH _ _ H3) | apply (IH _ _ Hb)]; lra.
Qed.
Lemma between_sound p lo hi bl bh depth x : between p lo hi bl bh depth = true -> Q2R lo <= x <= Q2R hi -> Q2R bl <= peval p x <= Q2R bh.
Proof.
  intros Hb [Hl Hh]. pose proof unit_pos as HU. pose proof (down_le lo). pose proof (up_ge hi). pose proof (up_ge bl). pose proof (down_le bh).
  assert (Q2R lo * IZR unit <= x * IZR unit) by (apply Rmult_le_compat_r; lra). assert (x * IZR unit <= Q2R hi * IZR unit) by (apply Rmult_le_compat_r; lra).
  pose proof (stays_sound p _ _ _ _ _ x Hb ltac:(lra)) as [G1 G2]. split; apply (Rmult_le_reg_r (IZR unit)); lra.
Qed.

(** ** Operations on polynomials *)
Fixpoint padd (p q : list Q) : list Q :=
  match p, q with [], _ => q | _, [] => p | a :: p, b :: q => Qred (a + b) :: padd p q end.
Definition pscale (c : Q) (p : list Q) : list Q := map (fun a => Qred (c * a)) p.
Fixpoint pderiv (p : list Q) : list Q := match p with [] => [] | c :: p => padd p (0%Q :: pderiv p) end.

Lemma peval_padd p q x : peval (padd p q) x = peval p x + peval q x.
Proof.
  revert q. induction p as [|a p IH]; intros [|b q]; cbn [padd peval]; try lra. rewrite Qred_R, Q2R_plus, IH. lra.
Qed.
Lemma peval_pscale c p x : peval (pscale c p) x = Q2R c * peval p x.
Proof. induction p as [|a p IH]; cbn [pscale map peval]; [lra|]. fold (pscale c p). rewrite Qred_R, Q2R_mult, IH. lra. Qed.
Lemma Q2R_0 : Q2R 0 = 0.
Proof. unfold Q2R. cbn. lra. Qed.
Lemma peval_deriv p x : derivable_pt_lim (peval p) x (peval (pderiv p) x).
Proof.
  induction p as [|c p IH]; cbn [pderiv].
  - apply (derivable_pt_lim_const 0).
  - rewrite peval_padd. cbn [peval]. rewrite Q2R_0.
    replace (peval p x + (0 + x * peval (pderiv p) x)) with (0 + (1 * peval p x + x * peval (pderiv p) x)) by lra.
    apply (derivable_pt_lim_plus (fun _ => Q2R c) (fun y => y * peval p y)); [apply derivable_pt_lim_const|].
    apply (derivable_pt_lim_mult (fun y => y) (peval p)); [apply derivable_pt_lim_id | exact IH].
Qed.

(** ** The mean value theorem as a bound *)
Lemma mvt_bound (f f' : R -> R) a b m M : a <= b -> (forall c, a <= c <= b -> derivable_pt_lim f c (f' c)) ->
  (forall c, a <= c <= b -> m <= f' c <= M) -> m * (b - a) <= f b - f a <= M * (b - a).
Proof.
  intros Hab Hd Hm. destruct (Req_dec a b) as [->|Hne]; [lra|].
  destruct (MVT_cor2 f f' a b) as (c & -> & Hc); [lra | exact Hd |].
  specialize (Hm c ltac:(lra)). split; apply Rmult_le_compat_r; lra.
Qed.

(** ** The exponential function *)
Lemma exp_neg_lower x : 1 - x <= exp (- x).
Proof. pose proof (exp_ineq1_le (- x)). lra. Qed.

(** A polynomial which nearly satisfies the differential equation is nearly the exponential function. *)
Lemma exp_poly p (lo hi eta K : R) x : peval p 0 = 1 -> lo <= 0 <= hi -> lo <= x <= hi -> 0 <= eta ->
  (forall c, lo <= c <= hi -> - eta <= peval (padd (pderiv p) (pscale (-1) p)) c <= eta) ->
  (forall c, lo <= c <= hi -> exp (- c) <= K) ->
  Rabs (peval p x * exp (- x) - 1) <= Rabs x * (eta * K).
Proof.
  intros H0 Hz Hx He Hb HK.
  set (h := fun c => peval p c * exp (- c)).
  set (h' := fun c => peval (pderiv p) c * exp (- c) + peval p c * (exp (- c) * (- (1)))).
  assert (Hd : forall c, derivable_pt_lim h c (h' c)).
  { intros c. unfold h, h'. apply (derivable_pt_lim_mult (peval p) (fun c => exp (- c))); [apply peval_deriv|].
    apply (derivable_pt_lim_comp Ropp exp); [apply derivable_pt_lim_opp, derivable_pt_lim_id | apply derivable_pt_lim_exp]. }
  assert (Hbd : forall c, lo <= c <= hi -> - (eta * K) <= h' c <= eta * K).
  { intros c Hc. unfold h'. specialize (Hb c Hc). specialize (HK c Hc). rewrite peval_padd, peval_pscale in Hb.
    replace (Q2R (-1)) with (-1) in Hb by (unfold Q2R; cbn; lra).
    replace (peval (pderiv p) c * exp (- c) + peval p c * (exp (- c) * - (1))) with ((peval (pderiv p) c + -1 * peval p c) * exp (- c)) by lra.
    pose proof (exp_pos (- c)) as Hp. set (d := peval (pderiv p) c + -1 * peval p c) in *. set (w := exp (- c)) in *.
    assert (HR : Rabs (d * w) <= eta * K).
    { rewrite Rabs_mult. apply Rmult_le_compat; try apply Rabs_pos; [apply Rabs_le; lra | rewrite Rabs_pos_eq; lra]. }
    revert HR. generalize (d * w), (eta * K). intros a b HR. unfold Rabs in HR. destruct (Rcase_abs a); lra. }
  change (peval p x * exp (- x)) with (h x).
  assert (E0 : h 0 = 1) by (unfold h; rewrite H0, Ropp_0, exp_0; lra).
  destruct (Rle_dec 0 x) as [Hpos|Hneg].
  - pose proof (mvt_bound h h' 0 x (- (eta * K)) (eta * K) Hpos ltac:(auto) ltac:(intros; apply Hbd; lra)) as HM.
    rewrite E0 in HM. rewrite (Rabs_pos_eq x) by lra. apply Rabs_le. lra.
  - pose proof (mvt_bound h h' x 0 (- (eta * K)) (eta * K) ltac:(lra) ltac:(auto) ltac:(intros; apply Hbd; lra)) as HM.
    rewrite E0 in HM. rewrite (Rabs_left x) by lra. apply Rabs_le. lra.
Qed.
