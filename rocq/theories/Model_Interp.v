(** Model of decimation, of the interpolation between neighbours (vector/src/vector_types/time_freq/interpolation.rs, real_interpolation.rs) and of the
    lookup tables (vector/src/conv_types.rs). No proofs here. *)
From Verif Require Export Model_Fft Model_Convolve Model_Complex.

(** Rounding of the number type (num_traits::Float, ToPrimitive). A record without laws. *)
(** Called in real_interpolation.rs:33-179, conv_types.rs:127-211, interpolation.rs:92-605. *)
Class Rounding (A : Type) := {
  ffloor : A -> A;
  fceil : A -> A;
  fround : A -> A;                   (* halves away from zero *)
  to_usize : A -> option nat;        (* truncates; None for numbers which are not larger than -1, for NaN and for too large numbers *)
  to_isize : A -> option Z;
  as_usize : A -> nat;               (* the cast [as usize]: negative numbers and NaN become 0 *)
}.

(** [.unwrap()] of [to_usize()]: real_interpolation.rs:38-42, 95-98, 107 *)
Definition unwrapped {X} (o : option X) : run X := match o with Some x => Done x | None => Panicked end.

Section interpolation.
Context {A : Type} `{Num A} `{Rem A} `{RA : Rounding A}.

(** interpolation.rs:607-634. The two branches only differ in what a point is. A factor of zero runs until [j] is behind the end. *)
Definition decimate_points {P} (l : list P) (points factor delay : nat) : run (nat * list P) :=
  '(_, j, l) ← while_ (S points) (fun '(i, _, _) => i <? points) (fun '(i, j, l) =>
      x ← rd l i;
      l ← wr l j x;
      Done (i + factor, j + 1, l)) (delay, 0, l);
  Done (j, l).
(** interpolation.rs:607-633 *)
Definition decimatei (v : dvec A) (factor delay : nat) : run (dvec A) :=
  data ← slice (elems v) 0 (len v);
  if is_complex v then
    c ← array_to_complex data;
    '(j, c) ← decimate_points c (points v) factor delay;
    l ← splice (elems v) 0 (complex_to_array c);
    Done (set_valid_len (set_elems v l) (j * 2))
  else
    '(j, data) ← decimate_points data (len v) factor delay;
    l ← splice (elems v) 0 data;
    Done (set_valid_len (set_elems v l) j).

(** real_interpolation.rs:37-42, 77-82: the number of points of the result *)
Definition interpolated_len (data_len : nat) (factor : A) : run nat :=
  n ← usub data_len 1;
  n ← unwrapped (to_usize (fround (nofnat n * factor)%num));
  Done (n + 1).

(** [for num in &mut dest[a..b] { .. i = i + 1 }]: writes the elements [a .. b]; [step i] computes an element from the counter *)
(** real_interpolation.rs:52-67, 104-175 *)
Definition fill_counting (a b : nat) (step : A -> run A) (s : A * list A) : run (A * list A) :=
  _ ← slice (snd s) a b;
  loop (b - a) a (fun k '(i, dest) => x ← step i; dest ← wr dest k x; Done ((i + n1)%num, dest)) s.

(** real_interpolation.rs:33-71. A complex vector keeps nothing of the buffer. *)
Definition interpolate_lin (b : buffer A) (v : dvec A) (factor delay : A) : run (dvec A * buffer A) :=
  dest_len ← interpolated_len (len v) factor;
  temp ← borrow n0 b dest_len;
  if is_complex v then Done (mark_vector_as_invalid v, give_back b temp)
  else
    data ← slice (elems v) 0 (len v);
    e ← usub dest_len 1;
    '(_, dest) ← fill_counting 0 e (fun i =>
        let rounded := (i / factor + delay)%num in
        let beforef := ffloor rounded in
        before ← unwrapped (to_usize beforef);
        y0 ← rd data before;
        y1 ← rd data (before + 1);
        Done (y0 + (y1 - y0) * (rounded - beforef))%num) (n0, temp);
    last ← usub (len v) 1;
    x ← rd data last;
    dest ← wr dest e x;
    let '(s, b') := trade b dest (Model_Vec.data v) in
    Done (set_valid_len (set_data v s) dest_len, b').

(** real_interpolation.rs:114-122, 137-144, 166-173: the polynomial through four neighbours; the brackets are those of the code *)
Definition hermite (y0 y1 y2 y3 x : A) : A :=
  (let half := n1 / nofnat 2 in
   let one_point_five := nofnat 3 / nofnat 2 in
   let two := nofnat 2 in
   let two_point_five := nofnat 5 / nofnat 2 in
   let x2 := x * x in
   let a0 := nopp half * y0 + one_point_five * y1 - one_point_five * y2 + half * y3 in
   let a1 := y0 - two_point_five * y1 + two * y2 - half * y3 in
   let a2 := nopp half * y0 + half * y2 in
   let a3 := y1 in
   (a0 * x * x2) + (a1 * x2) + (a2 * x) + a3)%num.

(** real_interpolation.rs:73-179 *)
Definition interpolate_hermite (b : buffer A) (v : dvec A) (factor delay : A) : run (dvec A * buffer A) :=
  dest_len ← interpolated_len (len v) factor;
  temp ← borrow n0 b dest_len;
  if is_complex v then Done (mark_vector_as_invalid v, give_back b temp)
  else
    data ← slice (elems v) 0 (len v);
    start ← unwrapped (to_usize (fceil ((n1 - delay) * factor)%num));
    (* 100-120: the first points, [y0] is extrapolated *)
    s ← fill_counting 0 start (fun i =>
        let rounded := (i / factor + delay)%num in
        let beforef := ffloor rounded in
        before ← unwrapped (to_usize beforef);
        _ ← assert_ (before =? 0);
        y1 ← rd data before;
        y2 ← rd data (before + 1);
        y3 ← rd data (before + 2);
        Done (hermite (y1 - (y2 - y1))%num y1 y2 y3 (rounded - beforef)%num)) (n0, temp);
    (* 122-143: the points in the middle *)
    e ← usub dest_len (start + 1);
    s ← fill_counting start e (fun i =>
        let rounded := (i / factor + delay)%num in
        let beforef := ffloor rounded in
        before ← unwrapped (to_usize beforef);
        bb ← usub before 1;
        y0 ← rd data bb;
        y1 ← rd data before;
        y2 ← rd data (before + 1);
        y3 ← rd data (before + 2);
        Done (hermite y0 y1 y2 y3 (rounded - beforef)%num)) s;
    (* 145-171: the last points, [y2] and [y3] are extrapolated where they are missing *)
    '(_, dest) ← fill_counting e dest_len (fun i =>
        let rounded := (i / factor + delay)%num in
        let beforef := ffloor rounded in
        before ← unwrapped (to_usize beforef);
        _ ← assert_ (len v <=? before + 2);
        bb ← usub before 1;
        y0 ← rd data bb;
        y1 ← rd data before;
        l1 ← usub (len v) 1;
        y2 ← (if before <? l1 then rd data (before + 1) else Done (y1 + (y1 - y0))%num);
        l2 ← usub (len v) 2;
        y3 ← (if before <? l2 then rd data (before + 2) else Done (y2 + (y2 - y1))%num);
        Done (hermite y0 y1 y2 y3 (rounded - beforef)%num)) s;
    let '(s, b') := trade b dest (Model_Vec.data v) in
    Done (set_valid_len (set_data v s) dest_len, b').

(** ** Lookup tables: conv_types.rs *)

(** conv_types.rs:71-75, 99-103: the four table types only differ in the type of their values *)
Record lut (P : Type) := Lut { lut_table : list P; lut_delta : A; lut_symmetric : bool }.
Global Arguments Lut {P} _ _ _.
Global Arguments lut_table {P} _.
Global Arguments lut_delta {P} _.
Global Arguments lut_symmetric {P} _.

(** conv_types.rs:127-152. [add], [sub] and [scale] are the operations of the values. *)
Definition linear_interpolation_between_bins {P} (add sub : P -> P -> P) (scale : P -> A -> P) (x : A) (round : nat) (table : list P) : run P :=
  let round_float := nofnat round in
  if nltb round_float x then
    if length table <=? round + 1 then rd table round
    else
      y0 ← rd table round;
      y1 ← rd table (round + 1);
      Done (add y0 (scale (sub y1 y0) (x - round_float)%num))
  else if round =? 0 then rd table round
  else
    y0 ← rd table round;
    y1 ← rd table (round - 1);
    Done (add y0 (scale (sub y1 y0) (round_float - x)%num)).

(** conv_types.rs:163-181 *)
Definition lut_calc {P} (zero : P) (add sub : P -> P -> P) (scale : P -> A -> P) (t : lut P) (x : A) : run P :=
  let len := length (lut_table t) in
  let x := (x / lut_delta t + nofnat (len / 2))%num in
  let round_float := fround x in
  let round := as_usize round_float in
  if len <=? round then Done zero
  else if nltb (fabs (x - round_float)%num) (n1 / (nofnat 10 * nofnat 10 * nofnat 10 * nofnat 10 * nofnat 10 * nofnat 10))%num
  then rd (lut_table t) round
  else linear_interpolation_between_bins add sub scale x round (lut_table t).
(** conv_types.rs:163-181 for the real tables *)
Definition real_lut_calc : lut A -> A -> run A := lut_calc n0 nadd nsub nmul.
(** conv_types.rs:163-181 for the complex tables *)
Definition complex_lut_calc : lut (A * A) -> A -> run (A * A) :=
  lut_calc (n0, n0) cadd csub (fun c x => (fst c * x, snd c * x)%num).

(** [i as f64] *)
(** conv_types.rs:198-211 *)
Definition of_int (z : Z) : A := if (z <? 0)%Z then nopp (nofnat (Z.to_nat (- z))) else nofnat (Z.to_nat z).
(** conv_types.rs:198-211: a table of [2 * len + 1] values *)
Definition lut_of_function {P} (f : A -> P) (is_symmetric : bool) (delta : A) (len : nat) : lut P :=
  Lut (map (fun k => f (of_int (Z.of_nat k - Z.of_nat len) * delta)%num) (seq 0 (2 * len + 1))) delta is_symmetric.

(** conv_types.rs:229-245. [InlineVector] is taken as a [Vec]. *)
Definition lut_to_complex (t : lut A) : run (lut (A * A)) :=
  let n := length (lut_table t) in
  let v := DVec (Storage KVec (2 * n) (replicate (2 * n) n0)) n1 DTime NReal (2 * n) in
  let '(v, _) := Model_Vec.resize n0 v n in
  l ← copy_into (elems v) 0 n (lut_table t);
  let v := set_delta (set_elems v l) (lut_delta t) in
  '(v, _) ← to_complex_b (FixedLenBuffer (replicate (2 * n) n0)) v;
  d ← vdata v;
  c ← array_to_complex d;
  Done (Lut c (lut_delta t) (lut_symmetric t)).
(** conv_types.rs:261-279 *)
Definition lut_to_real (s : settings) (sched : list nat) (t : lut (A * A)) : run (lut A) :=
  let n := length (lut_table t) in
  let l := complex_to_array (lut_table t) in
  let v := DVec (Storage KVec (2 * n) l) (lut_delta t) DTime NComplex (2 * n) in
  '(v, _) ← to_real_b s sched (FixedLenBuffer (replicate n n0)) v;
  d ← vdata v;
  Done (Lut d (lut_delta t) (lut_symmetric t)).
End interpolation.
Arguments lut A P : clear implicits.

Section transforms.
Context {A : Type} `{Num A} `{Flt A} `{F : Fft A}.

(** conv_types.rs:294-316: the buffer has the size of the table *)
Definition lut_fft (t : lut A (A * A)) : run (lut A (A * A)) :=
  let n := length (lut_table t) in
  let v := DVec (Storage KVec (2 * n) (complex_to_array (lut_table t))) (lut_delta t) DTime NComplex (2 * n) in
  '(v, _) ← vfft (FixedLenBuffer (replicate (2 * n) n0)) v;
  d ← vdata v;
  c ← array_to_complex d;
  Done (Lut c (delta v) (lut_symmetric t)).
(** conv_types.rs:361-383 *)
Definition lut_ifft (r : reg_type) (addr : nat) (s : settings) (sched : list nat) (t : lut A (A * A)) : run (lut A (A * A)) :=
  let n := length (lut_table t) in
  let v := DVec (Storage KVec (2 * n) (complex_to_array (lut_table t))) (lut_delta t) DFreq NComplex (2 * n) in
  '(v, _) ← vifft r addr s sched (FixedLenBuffer (replicate (2 * n) n0)) v;
  d ← vdata v;
  c ← array_to_complex d;
  Done (Lut c (delta v) (lut_symmetric t)).
(** conv_types.rs:328-349: the magnitude of the spectrum of a real table *)
Definition lut_real_fft (t : lut A A) : run (lut A A) :=
  let n := length (lut_table t) in
  let v := DVec (Storage KVec (2 * n) (replicate (2 * n) n0)) n1 DTime NReal (2 * n) in
  let '(v, _) := Model_Vec.resize n0 v n in
  l ← copy_into (elems v) 0 n (lut_table t);
  let v := set_delta (set_elems v l) (lut_delta t) in
  '(v, _) ← vfft (FixedLenBuffer (replicate (2 * n) n0)) v;
  v ← magnitude v;
  d ← vdata v;
  Done (Lut d (delta v) (lut_symmetric t)).
End transforms.
