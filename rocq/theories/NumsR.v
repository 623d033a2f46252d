(** The real numbers, as an instance of the number operations with exact laws. There is no NaN and no infinity: [nnan], [finf] and [fneginf] are
    arbitrary numbers, and no theorem about the real numbers uses them. *)
From Verif Require Export Model_Real Spec_Sum.
From Coq Require Export Reals Lra.

Local Open Scope R_scope.

Definition Rltb (x y : R) : bool := if Rlt_dec x y then true else false.
(** The number of whole turns towards zero *)
Definition Rtrunc (x : R) : Z := if Rlt_dec x 0 then Z.opp (Int_part (- x)) else Int_part x.
(** The angle of (x, y) in (-pi, pi] *)
Definition Ratan2 (y x : R) : R :=
  if Rlt_dec 0 x then atan (y / x)
  else if Rlt_dec x 0 then (if Rlt_dec y 0 then atan (y / x) - PI else atan (y / x) + PI)
  else if Rlt_dec 0 y then PI / 2 else if Rlt_dec y 0 then - (PI / 2) else 0.
Definition Rhypot (x y : R) : R := sqrt (x * x + y * y).
(** The square root with a non negative real part *)
Definition Rcsqrt (c : R * R) : R * R :=
  let m := Rhypot (fst c) (snd c) in
  (sqrt ((m + fst c) / 2), (if Rlt_dec (snd c) 0 then - sqrt ((m - fst c) / 2) else sqrt ((m - fst c) / 2))).

Global Instance Rnum : Num R := {|
  n0 := 0; n1 := 1; nadd := Rplus; nsub := Rminus; nmul := Rmult; ndiv := Rdiv; nopp := Ropp; nltb := Rltb; nnan := 0; nofnat := INR |}.
Global Instance Rflt : Flt R := {|
  finf := 0; fneginf := 0; fsqrt := sqrt; fhypot := Rhypot; fatan2 := Ratan2; fcsqrt := Rcsqrt; fpolar := fun r phi => (r * cos phi, r * sin phi) |}.
Global Instance Rrem : Rem R := {| frem := fun x d => x - d * IZR (Rtrunc (x / d)); fabs := Rabs |}.

Lemma R_exact : exact_ring R.
Proof. unfold exact_ring. split; simpl; intros; lra. Qed.

Lemma R_polar : forall x y : R, fpolar n1 (x + y)%num = cmul (fpolar n1 x) (fpolar n1 y).
Proof.
  intros x y. unfold cmul. simpl. rewrite cos_plus, sin_plus. f_equal; lra.
Qed.
Lemma R_nofnat : nofnat 0 = n0 /\ (forall n, nofnat (S n) = nofnat n + n1)%num.
Proof. split; [done|]. intros n. cbn [nofnat Rnum nadd n1]. apply S_INR. Qed.
Lemma R_hypot : forall a b : R, fhypot a b = fsqrt (a * a + b * b)%num.
Proof. done. Qed.
Lemma R_abs : forall x : R, fsqrt (x * x)%num = fabs x.
Proof. intros x. simpl. apply (sqrt_Rsqr_abs x). Qed.

Lemma hypot_pos x y : x <> 0 \/ y <> 0 -> 0 < Rhypot x y.
Proof. intros Hxy. apply sqrt_lt_R0. destruct Hxy; nra. Qed.

Lemma atan_parts x y : x <> 0 -> Rhypot x y * cos (atan (y / x)) = Rabs x /\ Rhypot x y * sin (atan (y / x)) = Rabs x * (y / x).
Proof.
  intros Hx. rewrite cos_atan, sin_atan.
  assert (Ha : 0 < Rabs x) by (by apply Rabs_pos_lt).
  assert (Hs : Rhypot x y = Rabs x * sqrt (1 + (y / x)²)).
  { unfold Rhypot. rewrite <- (sqrt_Rsqr_abs x), <- sqrt_mult_alt by apply Rle_0_sqr. f_equal. unfold Rsqr. field. done. }
  assert (Hp : 0 < sqrt (1 + (y / x)²)) by (apply sqrt_lt_R0; pose proof (Rle_0_sqr (y / x)); lra).
  rewrite Hs. split; field; lra.
Qed.

Lemma R_polar_of_arg : forall x y : R, fpolar (fhypot x y) (fatan2 y x) = (x, y).
Proof.
  intros x y. simpl. unfold Ratan2. destruct (Rlt_dec 0 x) as [Hx|Hx].
  - destruct (atan_parts x y) as [-> ->]; [lra|]. rewrite Rabs_right by lra. f_equal. field. lra.
  - destruct (Rlt_dec x 0) as [Hx'|Hx'].
    + destruct (atan_parts x y) as [C S]; [lra|]. rewrite Rabs_left in C, S by lra. destruct (Rlt_dec y 0).
      * replace (atan (y / x) - PI) with (- (PI - atan (y / x))) by lra. rewrite cos_neg, sin_neg.
        rewrite Rtrigo_facts.cos_pi_minus, Rtrigo_facts.sin_pi_minus.
        f_equal; [lra|]. transitivity (- (Rhypot x y * sin (atan (y / x)))); [lra|]. rewrite S. field. lra.
      * rewrite neg_cos, neg_sin. f_equal; [lra|]. transitivity (- (Rhypot x y * sin (atan (y / x)))); [lra|]. rewrite S. field. lra.
    + assert (x = 0) as -> by lra. unfold Rhypot. rewrite Rmult_0_l, Rplus_0_l. change (y * y) with (y²). rewrite sqrt_Rsqr_abs.
      destruct (Rlt_dec 0 y) as [Hy|Hy]; [|destruct (Rlt_dec y 0) as [Hy'|Hy']].
      * rewrite cos_PI2, sin_PI2, Rabs_right by lra. f_equal; lra.
      * rewrite cos_neg, sin_neg, cos_PI2, sin_PI2, Rabs_left by lra. f_equal; lra.
      * assert (y = 0) as -> by lra. rewrite Rabs_R0. f_equal; lra.
Qed.
