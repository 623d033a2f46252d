(** Specification vocabulary for the convolution with a function whose inverse ratio is a whole number. *)
From Verif Require Export Spec_Convolve Spec_Fft.
Local Open Scope R_scope.

(** [1 / ratio] is a whole number for all practical purposes, and [ratio] is greater than 1/2; [round] rounds to a whole number. *)
Definition whole_inverse (round : R -> R) (ratio : R) : Prop := Rabs (round (1 / ratio) - 1 / ratio) < 1 / 10 ^ 6 /\ 1 / 2 < ratio.

(** [m] samples of the function, beginning with the one at [-L / ratio] *)
Definition sampled_response {P} (f : R -> P) (ratio : R) (L m : nat) : list P := map (fun t => f ((INR t - INR L) * (1 / ratio))) (seq 0 m).
(** The same with zeros in between, as a list of [m] elements *)
Definition stretched_response (f : R -> R) (ratio : R) (L m : nat) : list R :=
  map (fun i => if Nat.even i then f ((INR (i / 2) - INR L) * (1 / ratio)) else 0) (seq 0 m).
(** [n] elements: real part, zero, imaginary part, and so on *)
Definition scattered_response (f : R -> R * R) (ratio : R) (L n : nat) : list R :=
  map (fun i => let value := f ((INR (i / 3) - INR L) * (1 / ratio)) in
    match (i mod 3)%nat with 0%nat => fst value | 1%nat => 0 | _ => snd value end) (seq 0 n).
