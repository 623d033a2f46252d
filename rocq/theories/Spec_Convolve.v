(** Specification vocabulary for convolutions. *)
From Verif Require Export Spec_Par Model_Convolve.

(** The position in a circle of [n] places *)
Definition circular (n : nat) (z : Z) : nat := Z.to_nat (z mod Z.of_nat n).
(** The element at a place of the circle *)
Definition around {P} (zero : P) (x : list P) (z : Z) : P := default zero (x !! circular (length x) z).

Section convolution.
Context {P : Type} (zero : P) (add mul : P -> P -> P).

(** [f 0 + f 1 + ... + f (n - 1)], added up in this order, beginning with zero *)
Definition series (n : nat) (f : nat -> P) : P := foldl add zero (map f (seq 0 n)).

(** The circular convolution of [x] with the taps [h]: point [i] is the sum over [k] of [x_(i + shift - 1 - k) * h_k]. *)
Definition circular_convolution (shift : nat) (x h : list P) : list P :=
  map (fun i => series (length h) (fun k => mul (around zero x (Z.of_nat i + Z.of_nat shift - 1 - Z.of_nat k)) (default zero (h !! k)))) (seq 0 (length x)).

(** ... where the middle of [h] belongs to point [i]: ceil(m / 2) - 1 points of the future take part *)
Definition centred_convolution (x h : list P) : list P := circular_convolution ((length h + 1) / 2) x h.

(** The sum over several channels: the terms of all rows, one row after the other *)
Definition matrix_convolution (shift : nat) (n : nat) (xs hs : list (list P)) : list P :=
  map (fun i => foldl add zero (concat (zip_with (fun x h =>
    map (fun k => mul (around zero x (Z.of_nat i + Z.of_nat shift - 1 - Z.of_nat k)) (default zero (h !! k))) (seq 0 (length h))) xs hs))) (seq 0 n).
End convolution.

(** The convolution with a function of the distance: point [i] is the sum over [j] from [- reach] to [reach] of [x_(i + j) * f (- j * ratio)];
    [place t] is the number [t - reach]. *)
Definition function_convolution {A P} `{Num A} (zero : P) (add mul : P -> P -> P) (place : nat -> nat -> A) (f : A -> P) (ratio : A) (reach : nat) (x : list P) : list P :=
  map (fun i => series zero add (2 * reach + 1) (fun t =>
         mul (around zero x (Z.of_nat i + Z.of_nat t - Z.of_nat reach)) (f (nopp (place reach t) * ratio)%num))) (seq 0 (length x)).
(** Counts from [- reach] upwards in the number type *)
Definition counted {A} `{Num A} (reach t : nat) : A := Nat.iter t (fun j => j + n1)%num (nopp (nofnat reach)).
