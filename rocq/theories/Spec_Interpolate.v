(** Specification vocabulary for the interpolation in frequency domain, over the real numbers. *)
From Verif Require Export Spec_Fft Spec_Window Model_Interpolate.
Local Open Scope R_scope.

(** [e^(i x)] *)
Definition circle (x : R) : R * R := (cos x, sin x).

(** The frequency which bin [k] of [n] bins stands for: those of the second half are negative. *)
Definition frequency (n k : nat) : Z := if (k <? n - n / 2)%nat then Z.of_nat k else (Z.of_nat k - Z.of_nat n)%Z.
(** The frequencies which a signal of [m] points can have *)
Definition in_band (m : nat) (f : Z) : bool := (- Z.of_nat (m / 2) <=? f)%Z && (f <? Z.of_nat (m - m / 2))%Z.

(** The trigonometric polynomial through the points [c], with the gain [g f] at frequency [f]; the distance between two points is 1:
    [1 / n * sum_k X_k * g (f_k) * e^(2 pi i f_k t / n)] *)
Definition polynomial (c : list (R * R)) (g : Z -> R) (t : R) : R * R :=
  let n := length c in
  complex_product (1 / INR n, 0) (series (0, 0) complex_sum n (fun k =>
    complex_product (default (0, 0) (dft (-1) c !! k))
      (complex_product (g (frequency n k), 0) (circle (2 * PI * IZR (frequency n k) * t / INR n))))).

(** [m] points of the polynomial in the range of the [n] points, moved by [d] *)
Definition samples (c : list (R * R)) (g : Z -> R) (m : nat) (d : R) : list (R * R) :=
  map (fun i => polynomial c g (INR i * INR (length c) / INR m + d)) (seq 0 m).

(** The gain of a low pass filter which only lets through what [m] points can represent *)
Definition band (m : nat) (f : Z) : R := if in_band m f then 1 else 0.
(** The points of a real signal as complex numbers *)
Definition of_real (x : R) : R * R := (x, 0).

(** The gain of an interpolation from [n] to [m] points. The x-axis of a frequency response has 1 at half of the sampling rate of the [n] points
    (if [m] is even). A response is only used if there are more points afterwards. *)
Definition response_gain (h : R -> R) (n m : nat) (f : Z) : R := h (IZR f / INR (m / 2) * (INR m / INR n)).
Definition gain (function : option (response R R)) (n m : nat) (f : Z) : R :=
  match function with
  | Some h => if (n <? m)%nat then response_gain (r_calc h) n m f else band m f
  | None => band m f
  end.
(** The conditions which a frequency response has to meet so that it ends up at the right bins of [m] bins. *)
Definition centered (h : response R R) (m : nat) : Prop :=
  (r_symmetric h = true /\ even_function (r_calc h) /\ Nat.even m = true) \/ (r_symmetric h = false /\ Nat.odd m = true).
(** What the bins are multiplied with in fact. The positive frequencies are right. The negative ones are only right under the conditions above: a
    symmetric response is one bin too early if [m] is odd, and one which isn't symmetric is one bin too late if [m] is even. *)
Definition placed_gain (h : response R R) (n m : nat) (f : Z) : R :=
  response_gain (r_calc h) n m
    (if (0 <=? f)%Z then f
     else if r_symmetric h then if Nat.even m then (- f)%Z else (- f - 1)%Z
     else if Nat.even m then if (f =? - Z.of_nat (m / 2))%Z then (- f)%Z else (f - 1)%Z else f).
Definition placed (function : option (response R R)) (n m : nat) (f : Z) : R :=
  match function with
  | Some h => if (n <? m)%nat then placed_gain h n m f else band m f
  | None => band m f
  end.
(** The threads can handle a symmetric response of [m] points. *)
Definition foldable (h : response R R) (s : settings) (m : nat) : Prop := r_symmetric h = true -> pairs_up s m.
(** What becomes of the points [c] if zeros are inserted between them and the spectrum of the [m] points (which has the spectrum of [c] several times)
    is multiplied with the gain [g]: [1 / n * sum_p X_(p mod n) * g (f_p) * e^(2 pi i f_p t / n)]. *)
Definition with_images (c : list (R * R)) (g : Z -> R) (m : nat) (t : R) : R * R :=
  let n := length c in
  complex_product (1 / INR n, 0) (series (0, 0) complex_sum m (fun p =>
    complex_product (default (0, 0) (dft (-1) c !! (p mod n)))
      (complex_product (g (frequency m p), 0) (circle (2 * PI * IZR (frequency m p) * t / INR n))))).
Definition samples_with_images (c : list (R * R)) (g : Z -> R) (factor : nat) : list (R * R) :=
  map (fun i => with_images c g (length c * factor) (INR i / INR factor)) (seq 0 (length c * factor)).

(** ** Interpolation with an impulse response *)
(** The sum over the [2 c + 1] points [x_p] from [p = lo] on, weighted with [h (p - t)]; the vector is continued periodically. *)
Definition weighted {P} (zero : P) (add mul : P -> P -> P) (from : R -> P) (x : list P) (h : R -> R) (lo : Z) (c : nat) (t : R) : P :=
  series zero add (2 * c + 1) (fun k => mul (around zero x (lo + Z.of_nat k)) (from (h (IZR (lo + Z.of_nat k) - t)))).
(** Rounded up *)
Definition Rceil (t : R) : Z := (- Int_part (- t))%Z.
(** [h] only reaches over less than [c] points *)
Definition reaches (h : R -> R) (c : nat) : Prop := forall y, INR c <= Rabs y -> h y = 0.
(** The length which the caller asks for, limited to half of the points *)
Definition half_at_most (n c : nat) : nat := Nat.min (n / 2) c.
(** ** Signals which [n] points can represent *)
(** A periodic signal with the amplitude [a_k] at the frequency of bin [k], with the gain [g f] at frequency [f]: [sum_k a_k * g (f_k) * e^(2 pi i f_k t / n)] *)
Definition harmonics (a : list (R * R)) (g : Z -> R) (t : R) : R * R :=
  series (0, 0) complex_sum (length a) (fun k =>
    complex_product (default (0, 0) (a !! k))
      (complex_product (g (frequency (length a) k), 0) (circle (2 * PI * IZR (frequency (length a) k) * t / INR (length a))))).
(** [n] points of a signal whose period is [n] *)
Definition sampled (signal : R -> R * R) (n : nat) : list (R * R) := map (fun q => signal (INR q)) (seq 0 n).
(** [sum_k (-1)^k x_k]; divided by the number of points this is the amplitude of the component at half of the sampling rate if that number is even *)
Definition alternating (l : list R) : R := series 0 Rplus (length l) (fun k => (-1) ^ k * default 0 (l !! k)).
(** ** The algorithm with SIMD registers (for an integer factor [k] and at least 2000 elements) *)
(** Point [i] of [m] points. [2 c + 1] points of the vector at each end are one algorithm, the points in between are another one. *)
Definition weighted_simd {P} (zero : P) (add mul : P -> P -> P) (from : R -> P) (x : list P) (h : R -> R) (d : R) (c k m i : nat) : P :=
  let t := INR i / INR k in
  if (i <? (2 * c + 1) * k)%nat || (m - (2 * c + 1) * k <=? i)%nat
  then weighted zero add mul from x (fun y => h (y + d)) (Int_part t - Z.of_nat c + 1) c t
  else weighted zero add mul from x (fun y => h (d - y)) (Rceil t - Z.of_nat c - 1) c t.
