(** Base layer: the pieces of Rust's semantics which the model needs.

    [run] is the outcome of a piece of code: it finishes with a value or it panics.  A panic also stands for
    undefined behaviour (an out of bounds raw pointer write).  Every slice access and every [usize] subtraction of the
    modelled code goes through one of the checked primitives below. *)
From stdpp Require Export list numbers.

Inductive run (A : Type) : Type :=
| Done (a : A)
| Panicked.
Arguments Done {_} _.
Arguments Panicked {_}.

Global Instance run_ret : MRet run := fun A a => Done a.
Global Instance run_bind : MBind run := fun A B f m =>
  match m with Done a => f a | Panicked => Panicked end.
Global Instance run_fmap : FMap run := fun A B f m =>
  match m with Done a => Done (f a) | Panicked => Panicked end.

(** [Result<(), ErrorReason>]: vector/src/vector_types/checks_and_results.rs:1-65
    (the constructors are in the order of the enum). *)
Inductive error_reason :=
| InputMustHaveTheSameSize
| InputMetaDataMustAgree
| InputMustBeComplex
| InputMustBeReal
| InputMustBeInTimeDomain
| InputMustBeInFrequencyDomain
| InvalidArgumentLength
| InputMustBeConjSymmetric
| InputMustHaveAnOddLength
| ArgumentFunctionMustBeSymmetric
| InvalidNumberOfArgumentsForCombinedOp
| InputMustNotBeEmpty
| InputMustHaveAnEvenLength
| TypeCanNotResize.

Inductive result (A : Type) : Type :=
| Ok (a : A)
| Err (e : error_reason).
Arguments Ok {_} _.
Arguments Err {_} _.

Global Instance error_reason_eq_dec : EqDecision error_reason.
Proof. solve_decision. Defined.

(** ** Checked primitives *)

(** [slice[i]] *)
Definition rd {A} (l : list A) (i : nat) : run A :=
  match l !! i with Some x => Done x | None => Panicked end.

(** [slice[i] = x] *)
Definition wr {A} (l : list A) (i : nat) (x : A) : run (list A) :=
  if i <? length l then Done (<[i:=x]> l) else Panicked.

(** [a - b] on [usize] *)
Definition usub (a b : nat) : run nat :=
  if b <=? a then Done (a - b) else Panicked.

(** [a / b] and [a % b] on [usize] *)
Definition udiv (a b : nat) : run nat :=
  match b with 0 => Panicked | _ => Done (a / b) end.
Definition umod (a b : nat) : run nat :=
  match b with 0 => Panicked | _ => Done (a mod b) end.

(** [assert!(b)] *)
Definition assert_ (b : bool) : run unit := if b then Done tt else Panicked.

(** [&slice[a..b]] *)
Definition slice {A} (l : list A) (a b : nat) : run (list A) :=
  if (a <=? b) && (b <=? length l) then Done (take (b - a) (drop a l)) else Panicked.

(** Writing back a mutable sub slice [&mut slice[a..a + new.len()]] whose content became [new] *)
Definition splice {A} (l : list A) (a : nat) (new : list A) : run (list A) :=
  if a + length new <=? length l then Done (take a l ++ new ++ drop (a + length new) l) else Panicked.

(** [slice[a..b].copy_from_slice(src)]: panics if the lengths differ *)
Definition copy_into {A} (l : list A) (a b : nat) (src : list A) : run (list A) :=
  if (a <=? b) && (b <=? length l) && (length src =? b - a)
  then Done (take a l ++ src ++ drop b l) else Panicked.

(** [for i in i..i + n { s = f(i, s) }] *)
Fixpoint loop {S} (n i : nat) (f : nat -> S -> run S) (s : S) : run S :=
  match n with
  | 0 => Done s
  | S n' => s' ← f i s; loop n' (i + 1) f s'
  end.

(** [while cond(s) { s = body(s) }] with fuel; running out of fuel is a panic, so a theorem [= Done _] also shows that the
    fuel was enough. *)
Fixpoint while_ {S} (fuel : nat) (cond : S -> bool) (body : S -> run S) (s : S) : run S :=
  match fuel with
  | 0 => Panicked
  | S fuel' => if cond s then s' ← body s; while_ fuel' cond body s' else Done s
  end.

(** [vector/src/lib.rs:282-291] memcpy: [copy] is memmove, hence the source is read before the destination is written. *)
Definition memcpy {A} (d : list A) (from_start from_end to : nat) : run (list A) :=
  _ ← assert_ (from_start <=? from_end);
  _ ← assert_ (from_end <=? length d);
  _ ← assert_ (to <=? length d - (from_end - from_start));
  let src := take (from_end - from_start) (drop from_start d) in
  Done (take to d ++ src ++ drop (to + (from_end - from_start)) d).

(** [vector/src/lib.rs:294-302] memzero *)
Definition memzero {A} (zero : A) (d : list A) (s e : nat) : run (list A) :=
  _ ← assert_ (s <=? e);
  _ ← assert_ (e <=? length d);
  Done (take s d ++ replicate (e - s) zero ++ drop e d).

(** [vector/src/lib.rs:238-279] array_to_complex(_mut): reinterprets pairs of neighbours; the length assertion fails on
    odd lengths. *)
Fixpoint pairs_of {A} (l : list A) : list (A * A) :=
  match l with
  | x :: y :: l' => (x, y) :: pairs_of l'
  | _ => []
  end.
Definition array_to_complex {A} (l : list A) : run (list (A * A)) :=
  _ ← assert_ (Nat.even (length l)); Done (pairs_of l).

(** [vector/src/vector_types/mod.rs:194-207] complex_to_array(_mut) *)
Fixpoint complex_to_array {A} (l : list (A * A)) : list A :=
  match l with
  | [] => []
  | (x, y) :: l' => x :: y :: complex_to_array l'
  end.

(** Operations of the number type ([RealNumber]: vector/src/lib.rs:124-137, 208). A record without laws: f32 and f64 are instances,
    and so are the exact numbers. *)
Class Num (A : Type) := {
  n0 : A;
  n1 : A;
  nadd : A -> A -> A;
  nsub : A -> A -> A;
  nmul : A -> A -> A;
  ndiv : A -> A -> A;
  nopp : A -> A;
  nltb : A -> A -> bool;      (* < *)
  nnan : A;                   (* NaN; some arbitrary element for number types without one *)
  nofnat : nat -> A;          (* from(usize) *)
}.
Declare Scope num_scope.
Delimit Scope num_scope with num.
Infix "+" := nadd : num_scope.
Infix "-" := nsub : num_scope.
Infix "*" := nmul : num_scope.
Infix "/" := ndiv : num_scope.
