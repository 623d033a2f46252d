(** Model of vector/src/window_functions.rs, the window multiplication (vector_types/mod.rs, time_freq/time.rs), the built in functions of
    vector/src/conv_types.rs and the multiplication by a frequency response (time_freq/mod.rs, time_freq/convolution.rs). No proofs here. *)
From Verif Require Export Model_Real.

(** Further functions of [RealNumber]; a record without laws. [fleb] and [feqb] are [<=] and [==]. *)
(** vector/src/lib.rs:124-137, 208 (Float, FloatConst) *)
Class Trig (A : Type) := {
  fpi : A; fsin : A -> A; fcos : A -> A; fleb : A -> A -> bool; feqb : A -> A -> bool;
}.

(** window_functions.rs:14-24. [is_symmetric] and [window n length] *)
Record window (A : Type) := Window { w_symmetric : bool; w_fun : nat -> nat -> A }.
Arguments Window {A} _ _.
Arguments w_symmetric {A} _.
Arguments w_fun {A} _ _ _.

(** conv_types.rs:15-64: the four traits for convolution functions; [C] is the type of the result. *)
Record response (A C : Type) := Response { r_symmetric : bool; r_calc : A -> C }.
Arguments Response {A C} _ _.
Arguments r_symmetric {A C} _.
Arguments r_calc {A C} _ _.

Section windows.
Context {A : Type} `{Num A} `{Flt A} `{Rem A} `{Trig A}.
Local Open Scope num_scope.

(** The decimal constant [0.hilo] with five places (two and three digits): the constants of the code are rounded from it to the number type *)
(** The constants of window_functions.rs:100-115. *)
Definition dec5 (hi lo : nat) : A := (nofnat hi * nofnat 1000 + nofnat lo) / (nofnat 100 * nofnat 1000).

(** window_functions.rs:27-43 *)
Definition triangular_window : window A := Window true (fun n length =>
  let n := nofnat n in
  let length := nofnat length in
  n1 - fabs ((n - (length - n1) / nofnat 2) / (length / nofnat 2))).
(** window_functions.rs:46-88 *)
Definition hamming_window (alpha : A) : window A :=
  let beta := n1 - alpha in
  Window true (fun n length =>
    let n := nofnat n in
    let length := nofnat length in
    alpha - beta * fcos (nofnat 2 * fpi * n / (length - n1))).
(** window_functions.rs:67-69 *)
Definition hamming_default : window A := hamming_window (nofnat 54 / nofnat 100).
(** window_functions.rs:91-116 *)
Definition blackman_harris_window : window A := Window true (fun n length =>
  let a_naught := dec5 35 875 in
  let a_one := dec5 48 829 in
  let a_two := dec5 14 128 in
  let a_three := dec5 1 168 in
  let n := nofnat n in
  let length := nofnat length in
  a_naught - a_one * fcos (nofnat 2 * fpi * n / (length - n1))
    + a_two * fcos (nofnat 4 * fpi * n / (length - n1))
    - a_three * fcos (nofnat 6 * fpi * n / (length - n1))).
(** window_functions.rs:119-132 *)
Definition rectangular_window : window A := Window true (fun _ _ => n1).

(** conv_types.rs:398-424 *)
Definition raised_cosine_time (rolloff : A) : response A A := Response true (fun x =>
  if feqb x n0 then n1
  else
    let two := nofnat 2 in
    let pi := fpi in
    let four := two * two in
    if feqb (fabs x) (n1 / (two * rolloff)) then
      let arg := pi / two / rolloff in
      fsin arg / arg * pi / four
    else
      let pi_x := pi * x in
      let arg := two * rolloff * x in
      fsin pi_x * fcos (pi_x * rolloff) / pi_x / (n1 - (arg * arg))).
(** conv_types.rs:426-450 *)
Definition raised_cosine_freq (rolloff : A) : response A A := Response true (fun x =>
  if fleb (fabs x) (n1 - rolloff) then n1
  else if nltb (n1 - rolloff) (fabs x) && fleb (fabs x) (n1 + rolloff) then
    n1 / nofnat 2 * (n1 + fcos (fpi / rolloff * (fabs x - (n1 - rolloff)) / nofnat 2))
  else n0).
(** conv_types.rs:471-488 *)
Definition sinc_time : response A A := Response true (fun x =>
  if feqb x n0 then n1 else let pi_x := fpi * x in fsin pi_x / pi_x).
(** conv_types.rs:490-506 *)
Definition sinc_freq : response A A := Response true (fun x => if fleb (fabs x) n1 then n1 else n0).

(** ** Multiplication of slices; [TT] is the type of the points and [mul] its product *)
Section points.
Context {TT : Type} (mul : TT -> TT -> TT).

(** vector_types/mod.rs:573-593, the closure on a pair of pieces: the common part of the first piece and of the reversed second piece, then the
    rest of the first piece *)
Fixpoint window_pairs (w : nat -> TT) (j : nat) (a1 r2 : list TT) : list TT * list TT :=
  match a1, r2 with
  | x :: a1', y :: r2' =>
      let arg := w j in
      let '(b1, b2) := window_pairs w (j + 1) a1' r2' in
      (mul x arg :: b1, mul y arg :: b2)
  | x :: a1', [] =>
      let '(b1, b2) := window_pairs w (j + 1) a1' [] in (mul x (w j) :: b1, b2)
  | [], _ => ([], r2)
  end.
(** vector_types/mod.rs:552-558 (the closure of the windows which are not symmetric) *)
Definition window_closure (w : nat -> TT) (a1 : list TT) (range1 : nat * nat) (a2 : list TT) (range2 : nat * nat) : run (list TT * list TT) :=
  _ ← assert_ (length a2 <=? length a1);
  let '(b1, b2) := window_pairs w (fst range1) a1 (rev a2) in
  Done (b1, rev b2).

(** vector_types/mod.rs:528-597 multiply_window_priv, on the converted slice; [fun_ j points] is the factor *)
Definition multiply_window_points (is_symmetric : bool) (fun_ : nat -> nat -> TT) (s : settings) (sched : list nat) (points : nat) (converted : list TT)
    : run (list TT) :=
  if negb is_symmetric then
    execute_with_range Medium s sched converted 1 (fun range n =>
      elem_steps (fun i x => Done (mul x (fun_ (fst range + i)%nat points))) n)
  else execute_sym_pairs Medium s converted 1 (window_closure (fun j => fun_ j points)).

(** time_freq/mod.rs:67-77 fft_swap_x *)
Definition fft_swap_x (is_fft_shifted : bool) (x_value x_max : A) : A :=
  if negb is_fft_shifted then x_value / x_max
  else if fleb x_value n0 then n1 + x_value / x_max
  else nopp (x_max - x_value + n1) / x_max.

(** time_freq/mod.rs:679-694: [while j < bound], an iterator without further elements makes [unwrap] panic. Returns the new elements, those
    which are left, and [j] *)
Fixpoint catch_up (g : A -> TT -> TT) (l : list TT) (j bound : A) : run (list TT * list TT * A) :=
  if nltb j bound then
    match l with
    | [] => Panicked
    | x :: l' => '(done_, rest, j') ← catch_up g l' (j + n1) bound; Done (g j x :: done_, rest, j')
    end
  else Done ([], l, j).
(** time_freq/mod.rs:696-701: the common part *)
Fixpoint common_part (g : A -> TT -> TT) (l1 l2 : list TT) (j : A) : list TT * list TT * list TT * list TT * A :=
  match l1, l2 with
  | x :: l1', y :: l2' =>
      let '(d1, r1, d2, r2, j') := common_part g l1' l2' (j + n1) in (g j x :: d1, r1, g j y :: d2, r2, j')
  | _, _ => ([], l1, [], l2, j)
  end.
(** time_freq/mod.rs:710-719: a loop over a slice *)
Fixpoint ascending (g : A -> TT -> TT) (l : list TT) (j : A) : list TT :=
  match l with [] => [] | x :: l' => g j x :: ascending g l' (j + n1) end.

(** time_freq/mod.rs:662-720, the closure on a pair of pieces. [scale] is [TT::from(ratio)]. The elements which are left of the first piece
    are its end; those which are left of the (reversed) second piece are its beginning, they are visited in the forward direction. *)
Definition response_closure (shifted : bool) (ratio : A) (scale : TT) (fun_ : A -> TT) (points : nat)
    (a1 : list TT) (range1 : nat * nat) (a2 : list TT) (range2 : nat * nat) : run (list TT * list TT) :=
  _ ← assert_ (length a2 <=? length a1);
  _ ← assert_ (snd range1 <=? fst range2);
  let offset := (points mod 2)%nat in
  let max := nofnat (points - offset) / nofnat 2 in
  let center := nofnat (points - offset) / nofnat 2 in
  let at_ := fun j => fun_ (fft_swap_x shifted j max * ratio) in
  let alone := fun j x => mul (mul x scale) (at_ j) in
  let together := fun j x => mul x (mul scale (at_ j)) in
  e2 ← usub (snd range2) 1;
  let j1 := nopp center + nofnat (fst range1) in
  let j2 := center - nofnat e2 in
  '(s1, l1, j1) ← catch_up alone a1 j1 j2;
  '(s2, l2, j2) ← catch_up alone (rev a2) j2 j1;
  let '(d1, l1, d2, l2, j1) := common_part together l1 l2 j1 in
  let e1 := ascending alone l1 j1 in
  let e2 := ascending alone (rev l2) j1 in
  Done (s1 ++ d1 ++ e1, e2 ++ rev (s2 ++ d2)).

(** time_freq/mod.rs:612-723 multiply_function_priv, on the converted slice. In the first case [points] is [self.points()], in the second
    one the length of the slice; they agree. In the first case [j] is counted up from the position of the range. *)
Definition multiply_function_points (is_symmetric is_fft_shifted : bool) (ratio : A) (scale : TT) (fun_ : A -> TT) (s : settings) (sched : list nat)
    (points : nat) (converted : list TT) : run (list TT) :=
  if negb is_symmetric then
    execute_with_range Medium s sched converted 1 (fun range n =>
      let offset := if negb (points mod 2 =? 0)%nat then 1%nat else 0%nat in
      let max := nofnat (points - offset) / nofnat 2 in
      let j := nopp (nofnat (points - offset)) / nofnat 2 + nofnat (fst range) in
      elem_steps (fun i x =>
        let j := Nat.iter i (fun j => j + n1) j in
        Done (mul (mul x scale) (fun_ (fft_swap_x is_fft_shifted j max * ratio)))) n)
  else execute_sym_pairs Medium s converted 1 (response_closure is_fft_shifted ratio scale fun_ (length converted)).
End points.

(** The conversions of the valid part of the storage: [|array| array] and [|array| array_to_complex_mut(array)] *)
(** time.rs:32-66 (the real branch) *)
Definition on_reals (f : nat -> list A -> run (list A)) (v : dvec A) : run (dvec A) :=
  l ← vdata v;
  l' ← f (points v) l;
  e ← splice (elems v) 0 l';
  Done (set_elems v e).
(** time.rs:32-66 (the complex branch) *)
Definition on_points (f : nat -> list (A * A) -> run (list (A * A))) (v : dvec A) : run (dvec A) :=
  l ← vdata v;
  c ← array_to_complex l;
  c' ← f (points v) c;
  e ← splice (elems v) 0 (complex_to_array c');
  Done (set_elems v e).

(** time_freq/time.rs:32-48. The vector is not checked to be in time domain. *)
Definition apply_window (w : window A) (s : settings) (sched : list nat) (v : dvec A) : run (dvec A) :=
  if is_complex v then on_points (multiply_window_points cmul (w_symmetric w) (fun i p => (w_fun w i p, n0)) s sched) v
  else on_reals (multiply_window_points nmul (w_symmetric w) (w_fun w) s sched) v.
(** time_freq/time.rs:50-66 *)
Definition unapply_window (w : window A) (s : settings) (sched : list nat) (v : dvec A) : run (dvec A) :=
  if is_complex v then on_points (multiply_window_points cmul (w_symmetric w) (fun i p => (n1 / w_fun w i p, n0)) s sched) v
  else on_reals (multiply_window_points nmul (w_symmetric w) (fun i p => n1 / w_fun w i p) s sched) v.

(** time_freq/convolution.rs:553-570 *)
Definition multiply_complex_response (h : response A (A * A)) (ratio : A) (s : settings) (sched : list nat) (v : dvec A) : run (dvec A) :=
  if negb (is_complex v) || negb (ddomain_eqb (vdomain v) Frequency) then Done (mark_vector_as_invalid v)
  else on_points (multiply_function_points cmul (r_symmetric h) false ratio (ratio, n0) (r_calc h) s sched) v.
(** time_freq/convolution.rs:581-609 *)
Definition multiply_real_response (h : response A A) (ratio : A) (s : settings) (sched : list nat) (v : dvec A) : run (dvec A) :=
  if negb (ddomain_eqb (vdomain v) Frequency) then Done (mark_vector_as_invalid v)
  else if is_complex v then
    on_points (multiply_function_points cmul (r_symmetric h) false ratio (ratio, n0) (fun x => (r_calc h x, n0)) s sched) v
  else on_reals (multiply_function_points nmul (r_symmetric h) false ratio ratio (r_calc h) s sched) v.
End windows.
