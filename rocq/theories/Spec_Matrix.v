(** Specification vocabulary for matrices. *)
From Verif Require Export Model_Matrix Spec_Convolve.
From Verif Require Export Spec_Fft.

(** Every row of [m'] is the image of the row of [m] with the same number, and nothing else happened. *)
Definition each_row {V W} (f : nat -> V -> run W) (m : list V) (m' : list W) : Prop :=
  length m' = length m /\ forall i v, m !! i = Some v -> exists w, m' !! i = Some w /\ f i v = Done w.

(** Rows of [n] points, added up point by point *)
Definition row_sums {P} (zero : P) (add : P -> P -> P) (n : nat) (rows : list (list P)) : list P :=
  map (fun i => foldl add zero (map (fun row => default zero (row !! i)) rows)) (seq 0 n).

(** The rows of a matrix hold these numbers. *)
Definition real_rows {A} (m : matrix A) (xs : list (list A)) : Prop := Forall2 reals m xs.
Definition complex_rows {A} (m : matrix A) (xs : list (list (A * A))) : Prop := Forall2 cplx m xs.

(** A method was tried on one row after the other, starting with the first one, until it failed: the rows before the failing one are changed, the failing row is
    what the method made of it, and the rows behind it are as before. *)
Definition tried_rows {V} (f : nat -> V -> run (V * result unit)) (m m' : list V) (res : result unit) : Prop :=
  length m' = length m /\
  exists k, k <= length m /\
    (forall i v, i < k -> m !! i = Some v -> exists w, m' !! i = Some w /\ f i v = Done (w, Ok tt)) /\
    match res with
    | Ok _ => k = length m
    | Err e => (exists v w, m !! k = Some v /\ m' !! k = Some w /\ f k v = Done (w, Err e)) /\ forall i, k < i -> m' !! i = m !! i
    end.
(** The rows are paired with the rows of another matrix; a row without counterpart stays as it is. *)
Definition paired {V W} (f : nat -> V -> W -> run (V * result unit)) (o : list W) (i : nat) (v : V) : run (V * result unit) :=
  match o !! i with Some w => f i v w | None => Done (v, Ok tt) end.

(** The rows are visited in the given order: row [order 0], row [order 1], ... Every row is replaced by its image, and what the visit of one row leaves in the
    buffer is what the visit of the next one finds there. *)
Definition through {V W St} (order : nat -> nat) (f : nat -> St -> V -> run (W * St)) (b : St) (m : list V) (b' : St) (m' : list W) : Prop :=
  length m' = length m /\
  exists bs : nat -> St, bs 0 = b /\ bs (length m) = b' /\
    forall j, j < length m -> exists v w,
      m !! order j = Some v /\ m' !! order j = Some w /\ f (order j) (bs j) v = Done (w, bs (S j)).
Definition first_to_last (j : nat) : nat := j.
Definition last_to_first (n j : nat) : nat := n - 1 - j.
(** The same for methods which may fail: all rows are converted, the error which is reported is the last one that occurred. *)
Definition through_all {V W St} (order : nat -> nat) (f : nat -> St -> V -> run (W * St * result unit)) (b : St) (m : list V)
    (b' : St) (m' : list W) (res : result unit) : Prop :=
  length m' = length m /\
  exists (bs : nat -> St) (rs : nat -> result unit), bs 0 = b /\ bs (length m) = b' /\
    (forall j, j < length m -> exists v w,
      m !! order j = Some v /\ m' !! order j = Some w /\ f (order j) (bs j) v = Done (w, bs (S j), rs j)) /\
    match res with
    | Ok _ => forall j, j < length m -> rs j = Ok tt
    | Err e => exists j, j < length m /\ rs j = Err e /\ forall j', j < j' < length m -> rs j' = Ok tt
    end.
(** In place, with a buffer, until a row fails *)
Definition tried_through {V St} (f : nat -> St -> V -> run (V * St * result unit)) (b : St) (m : list V) (b' : St) (m' : list V) (res : result unit) : Prop :=
  length m' = length m /\
  exists (bs : nat -> St) k, k <= length m /\ bs 0 = b /\
    (forall i v, i < k -> m !! i = Some v -> exists w, m' !! i = Some w /\ f i (bs i) v = Done (w, bs (S i), Ok tt)) /\
    match res with
    | Ok _ => k = length m /\ bs k = b'
    | Err e => (exists v w, m !! k = Some v /\ m' !! k = Some w /\ f k (bs k) v = Done (w, b', Err e)) /\ forall i, k < i -> m' !! i = m !! i
    end.
Definition paired_through {V W St} (f : nat -> St -> V -> W -> run (V * St * result unit)) (o : list W) (i : nat) (b : St) (v : V) :
    run (V * St * result unit) :=
  match o !! i with Some w => f i b v w | None => Done (v, b, Ok tt) end.

(** One result per row, or the error of the first row which has no result *)
Definition collected {V X} (f : nat -> V -> run (result X)) (m : list V) (res : result (list X)) : Prop :=
  match res with
  | Ok l => length l = length m /\ forall i v, m !! i = Some v -> exists x, l !! i = Some x /\ f i v = Done (Ok x)
  | Err e => exists k v, m !! k = Some v /\ f k v = Done (Err e) /\ forall i w, i < k -> m !! i = Some w -> exists x, f i w = Done (Ok x)
  end.

(** The number of rows fits to the type of the matrix. *)
Definition rows_ok {V} (k : mkind) (m : list V) : Prop :=
  match k with MatrixMxN => True | Matrix2xN => length m = 2 | Matrix3xN => length m = 3 | Matrix4xN => length m = 4 end.
(** The order in which the rows of a matrix are converted *)
Definition visiting (k : mkind) (n : nat) : nat -> nat := match k with MatrixMxN => last_to_first n | _ => first_to_last end.

(** All rows have the same length and the same meta data. *)
Definition uniform {A} (m : matrix A) : Prop :=
  forall v w, v ∈ m -> w ∈ m -> len v = len w /\ is_complex v = is_complex w /\ vdomain v = vdomain w /\ delta v = delta w.
