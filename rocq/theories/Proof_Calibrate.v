(** Proofs about the thresholds which the calibration finds (C66) *)
From Coq Require Import Reals Lra.
From stdpp Require Import tactics.
From Verif Require Import Proof_Base Spec_Settings NumsR.
Local Open Scope nat_scope.
Local Open Scope R_scope.

(** The times of the benchmark are proportional to the size with one thread, and a line with more threads. *)
Lemma Rltb_no x y : y <= x -> nltb (x : R) y = false.
Proof. intros Hx. cbn. unfold Rltb. destruct (Rlt_dec x y); [lra|done]. Qed.

Section calibrate.
Context {RA : Rounding R} (elapsed : nat -> nat -> R) (finite : R -> bool) (regress : list R -> list R -> option (R * R)) (twice : nat -> nat).
Context (cores : nat) (a m2 b2 mx bx : R).
Context (Hone : forall n, elapsed n 1 = a * INR n) (Htwo : forall n, elapsed n 2 = m2 * INR n + b2) (Hmax : forall n, elapsed n cores = mx * INR n + bx).
Context (Hcores : (2 <= cores)%nat).
Context (Hslow : forall n k, (10 * thousand <= n)%nat -> 1000 <= elapsed n k).

Lemma measured n k : (10 * thousand <= n)%nat -> measure elapsed k n = inl (elapsed n k).
Proof.
  intros Hn. unfold measure. rewrite (Rltb_no (elapsed n k)); [done|]. change (nofnat thousand : R) with (INR thousand). unfold thousand.
  replace (INR 1000) with 1000 by (rewrite INR_IZR_INZ; reflexivity). exact (Hslow n k Hn).
Qed.
Lemma measurements_lines k n : (10 * thousand <= n)%nat -> exists xs, length xs = k /\ (forall x, x ∈ xs -> INR n <= x) /\ ((0 < k)%nat -> INR n ∈ xs) /\ ((1 < k)%nat -> INR (n + 5 * thousand) ∈ xs) /\
  measurements elapsed cores k n = inl (xs, map (fun x => a * x) xs, map (fun x => m2 * x + b2) xs, map (fun x => mx * x + bx) xs).
Proof.
  revert n. induction k as [|k IH]; intros n Hn; cbn [measurements].
  - exists []. split_and!; [done| |lia|lia|done]. intros x Hx. by apply elem_of_nil in Hx.
  - rewrite (measured n 1 Hn), (measured n 2 Hn).
    assert (E : (if (2 <? cores)%nat then measure elapsed cores n else inl (elapsed n 2)) = inl (elapsed n cores)).
    { destruct (Nat.ltb_spec 2 cores) as [Hc|Hc]; [exact (measured n cores Hn)|]. by replace cores with 2%nat by lia. }
    rewrite E. destruct (IH (n + 5 * thousand)%nat) as (xs & Hl & Hp & Hi & _ & ->); [lia|]. exists (INR n :: xs). split; [cbn; by rewrite Hl|]. split_and!.
    + intros x Hx. apply elem_of_cons in Hx as [-> |Hx]; [lra|]. apply Hp in Hx. apply (Rle_trans _ (INR (n + 5 * thousand))); [apply le_INR; lia|done].
    + intros _. left.
    + intros Hk. right. apply Hi. lia.
    + rewrite Hone, Htwo, Hmax. reflexivity.
Qed.
Lemma ratios xs : (forall x, x ∈ xs -> 0 < x) -> forall acc, foldl (fun sum p => (sum + snd p / fst p)%num) acc (zip xs (map (fun x => a * x) xs)) = acc + INR (length xs) * a.
Proof.
  induction xs as [|x xs IH]; intros Hp acc.
  - cbn. lra.
  - cbn [map zip zip_with foldl]. rewrite IH; [|intros y Hy; apply Hp; by right]. cbn [fst snd nadd ndiv Rnum]. change (length (x :: xs)) with (S (length xs)). rewrite S_INR.
    assert (Hx : 0 < x) by (apply Hp; left). field_simplify; lra.
Qed.
Lemma proportional xs : (forall x, finite x = true) -> xs <> [] -> (forall x, x ∈ xs -> 0 < x) -> proportional_regression finite xs (map (fun x => a * x) xs) = Some a.
Proof.
  intros Hf Hne Hp. unfold proportional_regression. rewrite (ratios xs Hp n0), Hf. f_equal. cbn [n0 ndiv nofnat Rnum].
  assert (0 < INR (length xs)) by (apply lt_0_INR; destruct xs; [done|cbn; lia]). field. lra.
Qed.

Lemma limit_clip v lo hi : (lo <= hi)%nat -> limit v lo hi = Nat.min hi (Nat.max lo v).
Proof. intros Hl. unfold limit. destruct (Nat.ltb_spec v lo), (Nat.ltb_spec hi v); lia. Qed.

Theorem break_even s2 sx : (forall x, finite x = true) ->
  (forall xs m b, (exists x y, x ∈ xs /\ y ∈ xs /\ x <> y) -> regress xs (map (fun x => m * x + b) xs) = Some (m, b)) ->
  (forall x, 0 <= x <= Rmax s2 sx -> exists n, to_usize (Rabs (fround x)) = Some n /\ Rabs (INR n - x) <= / 2) ->
  m2 < a -> mx < a -> 0 <= s2 -> 0 <= sx -> a * s2 = m2 * s2 + b2 -> a * sx = mx * sx + bx ->
  exists c n2 nx, calibrate elapsed finite regress twice cores = Done c /\ c_code c = 0%nat /\ Rabs (INR n2 - s2) <= / 2 /\ Rabs (INR nx - sx) <= / 2 /\
    c_large_dual c = Nat.min (100 * thousand) (Nat.max (5 * thousand) n2) /\ c_large_multi c = Nat.min (200 * thousand) (Nat.max (c_large_dual c + 1) nx) /\
    c_med_dual c = Nat.min (100 * thousand) (Nat.max (5 * thousand) (twice n2)) /\ c_med_multi c = Nat.min (200 * thousand) (Nat.max (c_med_dual c + 1) (twice nx)).
Proof.
  intros Hf Hreg Hround H2 Hx P2 Px E2 Ex.
  assert (M2 : s2 = (b2 - n0) / (a - m2)). { cbn. field_simplify_eq; lra. }
  assert (Mx : sx = (bx - n0) / (a - mx)). { cbn. field_simplify_eq; lra. }
  destruct (Hround s2) as (n2 & U2 & R2); [split; [done|apply Rmax_l]|]. destruct (Hround sx) as (nx & Ux & Rx); [split; [done|apply Rmax_r]|].
  destruct (measurements_lines 10 (10 * thousand) (le_n _)) as (xs & Hl & Hp & I1 & I2 & Em).
  assert (D : exists x y, x ∈ xs /\ y ∈ xs /\ x <> y).
  { exists (INR (10 * thousand)), (INR (10 * thousand + 5 * thousand)). split_and!; [apply I1; lia|apply I2; lia|]. apply Rlt_not_eq. apply lt_INR. unfold thousand. lia. }
  unfold calibrate, attempt_calibrate. destruct (Nat.eqb_spec cores 1) as [|_]; [lia|]. rewrite Em, (Hreg xs m2 b2 D), (Hreg xs mx bx D).
  rewrite (proportional xs Hf); [|intros ->; discriminate Hl|intros x Hx'; apply Hp in Hx'; apply (Rlt_le_trans _ (INR (10 * thousand))); [apply lt_0_INR; unfold thousand; lia|done]]. cbn [unwrapped]. rewrite bind_Done.
  unfold lines_meet. change (fabs (A := R)) with Rabs. change (@nsub R _) with Rminus. change (@ndiv R _) with Rdiv. rewrite <- M2, <- Mx, U2, Ux, bind_Done.
  eexists _, n2, nx. split; [reflexivity|]. cbn [c_code c_large_dual c_large_multi c_med_dual c_med_multi]. split_and!; try done.
  - rewrite limit_clip; [done|lia].
  - rewrite (limit_clip nx); [done|]. rewrite limit_clip by lia. unfold thousand. lia.
  - rewrite limit_clip; [done|lia].
  - rewrite (limit_clip (twice nx)); [done|]. rewrite limit_clip by lia. unfold thousand. lia.
Qed.
End calibrate.
