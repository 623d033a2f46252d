(** C66, continued: the thresholds are where more threads begin to pay off *)
From Coq Require Import Reals Lra Lia.
From stdpp Require Import tactics.
From Verif Require Import Proof_Base Proof_Calibrate Spec_Settings NumsR.
Local Open Scope R_scope.

(** If the benchmark needs a time which is proportional to the size with one thread, and a constant cost plus a smaller slope with 2 threads and with all cores, then
    the thresholds for large operations are the sizes [s2] and [sx] where both take the same time, rounded and kept within their bounds; those for medium
    operations are twice as large. The regression is assumed to find every line exactly, the rounding to be to the nearest. *)
Theorem C66_break_even : forall {RA : Rounding R} (elapsed : nat -> nat -> R) finite regress twice cores a m2 b2 mx bx s2 sx, (2 <= cores)%nat ->
  (forall n, elapsed n 1%nat = a * INR n) -> (forall n, elapsed n 2%nat = m2 * INR n + b2) -> (forall n, elapsed n cores = mx * INR n + bx) ->
  (forall n k, (10 * thousand <= n)%nat -> 1000 <= elapsed n k) -> (forall x, finite x = true) ->
  (forall xs m b, (exists x y, x ∈ xs /\ y ∈ xs /\ x <> y) -> regress xs (map (fun x => m * x + b) xs) = Some (m, b)) ->
  (forall x, 0 <= x <= Rmax s2 sx -> exists n, to_usize (Rabs (fround x)) = Some n /\ Rabs (INR n - x) <= / 2) ->
  m2 < a -> mx < a -> 0 <= s2 -> 0 <= sx -> a * s2 = m2 * s2 + b2 -> a * sx = mx * sx + bx ->
  exists c n2 nx, calibrate elapsed finite regress twice cores = Done c /\ c_code c = 0%nat /\ Rabs (INR n2 - s2) <= / 2 /\ Rabs (INR nx - sx) <= / 2 /\
    c_large_dual c = Nat.min (100 * thousand) (Nat.max (5 * thousand) n2) /\ c_large_multi c = Nat.min (200 * thousand) (Nat.max (c_large_dual c + 1) nx) /\
    c_med_dual c = Nat.min (100 * thousand) (Nat.max (5 * thousand) (twice n2)) /\ c_med_multi c = Nat.min (200 * thousand) (Nat.max (c_med_dual c + 1) (twice nx)).
Proof.
  intros RA elapsed finite regress twice cores a m2 b2 mx bx s2 sx Hc H1 H2 Hx Hs Hf Hr Hu G1 G2 G3 G4 G5 G6.
  exact (break_even elapsed finite regress twice cores a m2 b2 mx bx H1 H2 Hx Hc Hs s2 sx Hf Hr Hu G1 G2 G3 G4 G5 G6).
Qed.
Print Assumptions C66_break_even.

(** A machine with 4 cores, where the second thread costs 10 us and all of them 30 us *)
Definition machine (n k : nat) : R := match k with 1%nat => 1 * INR n | 2%nat => / 2 * INR n + 10000 | _ => / 4 * INR n + 30000 end.
(** The line through the first point and the first other one *)
Definition line (xs ys : list R) : option (R * R) :=
  match zip xs ys with
  | [] => None
  | (x0, y0) :: l =>
      match List.find (fun p => if Req_EM_T (fst p) x0 then false else true) l with
      | None => None
      | Some (x, y) => let m := (y - y0) / (x - x0) in Some (m, y0 - m * x0)
      end
  end.
Lemma line_exact xs m b : (exists x y, x ∈ xs /\ y ∈ xs /\ x <> y) -> line xs (map (fun x => m * x + b) xs) = Some (m, b).
Proof.
  intros (x & y & Hx & Hy & Hn). unfold line. destruct xs as [|x0 xs]; [by apply elem_of_nil in Hx|]. cbn [map zip zip_with].
  assert (Ho : exists z, z ∈ xs /\ z <> x0).
  { destruct (Req_EM_T x x0) as [->|Hx0].
    - apply elem_of_cons in Hy as [->|Hy]; [done|]. by exists y.
    - apply elem_of_cons in Hx as [?|Hx]; [done|]. by exists x. }
  clear Hx Hy Hn. destruct Ho as (z & Hz & Hzn). induction xs as [|w xs IH]; [by apply elem_of_nil in Hz|]. cbn [map zip zip_with List.find fst].
  destruct (Req_EM_T w x0) as [->|Hw].
  - apply IH. apply elem_of_cons in Hz as [?|Hz]; [done|exact Hz].
  - f_equal. f_equal; field; lra.
Qed.
Definition nearest : Rounding R := {| ffloor := fun x => IZR (Int_part x); fceil := fun x => - IZR (Int_part (- x)); fround := fun x => IZR (Int_part (x + / 2));
  to_usize := fun x => Some (Z.to_nat (Int_part x)); to_isize := fun x => Some (Int_part x); as_usize := fun x => Z.to_nat (Int_part x) |}.
Lemma Int_part_IZR k : Int_part (IZR k) = k.
Proof.
  destruct (base_Int_part (IZR k)) as [H1 H2]. apply le_IZR in H1. assert (IZR k - 1 < IZR (Int_part (IZR k))) by lra.
  rewrite <- minus_IZR in H. apply lt_IZR in H. lia.
Qed.
Example C66_break_even_example : exists c, calibrate (RA := nearest) machine (fun _ => true) line (fun n => (2 * n)%nat) 4 = Done c /\
  c_large_dual c = (20 * thousand)%nat /\ c_large_multi c = (40 * thousand)%nat /\ c_med_dual c = (40 * thousand)%nat /\ c_med_multi c = (80 * thousand)%nat.
Proof.
  destruct (C66_break_even (RA := nearest) machine (fun _ => true) line (fun n => (2 * n)%nat) 4 1 (/ 2) 10000 (/ 4) 30000 (IZR 20000) (IZR 40000)) as (c & n2 & nx & E & _ & N2 & Nx & C1 & C2 & C3 & C4);
    try (intros; reflexivity); try (intros; cbn [machine]; lra); try lra; [lia| |intros xs m b; exact (line_exact xs m b)| |].
  - intros n k Hn. assert (G : IZR 10000 <= INR n).
    { rewrite INR_IZR_INZ. apply IZR_le. unfold thousand in Hn. lia. }
    unfold machine. destruct k as [|[|[|k]]]; lra.
  - intros x [Hx _]. cbn [to_usize fround nearest]. destruct (base_Int_part (x + / 2)) as [B1 B2].
    assert (P : (0 <= Int_part (x + / 2))%Z). { apply le_IZR. assert (-1 < Int_part (x + / 2))%Z by (apply lt_IZR; lra). apply IZR_le. lia. }
    rewrite Rabs_right by (apply Rle_ge, (IZR_le 0), P). rewrite Int_part_IZR. eexists. split; [reflexivity|].
    rewrite INR_IZR_INZ, Z2Nat.id by exact P. apply Rabs_le. lra.
  - exists c. split; [exact E|].
    assert (E2 : n2 = (20 * thousand)%nat). { apply Nat2Z.inj. rewrite INR_IZR_INZ, <- minus_IZR in N2. rewrite <- abs_IZR in N2. assert (Z.abs (Z.of_nat n2 - 20000) < 1)%Z by (apply lt_IZR; lra). unfold thousand. lia. }
    assert (Ex : nx = (40 * thousand)%nat). { apply Nat2Z.inj. rewrite INR_IZR_INZ, <- minus_IZR in Nx. rewrite <- abs_IZR in Nx. assert (Z.abs (Z.of_nat nx - 40000) < 1)%Z by (apply lt_IZR; lra). unfold thousand. lia. }
    subst n2 nx. assert (T : (1 <= thousand)%nat) by (unfold thousand; lia). rewrite C1 in C2. rewrite C3 in C4. split_and!; lia.
Qed.
