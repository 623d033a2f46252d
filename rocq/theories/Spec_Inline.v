(** A list with an optional limit of its length, independently of the code *)
From Verif Require Export Model_Inline.

Definition limit := option nat.
Definition fits (m : limit) (n : nat) : Prop := match m with Some k => n <= k | None => True end.
(** The limit of a vector which was created for [n] elements *)
Definition limit_of (b : build) (n : nat) : limit :=
  match b with WithStd => if n <=? 64 then Some 64 else None | WithoutStd => Some 64 end.

(** What a call does to a list ([a] is the answer); nothing else happens *)
Inductive list_call {T} : list T -> icall T -> list T -> ians T -> Prop :=
  | LPush l x : list_call l (Push x) (l ++ [x]) Nothing
  | LPop l x : list_call (l ++ [x]) Pop l (Some_elem (Some x))
  | LPopEmpty : list_call [] Pop [] (Some_elem None)
  | LRemove l1 x l2 : list_call (l1 ++ x :: l2) (Remove (length l1)) (l1 ++ l2) (Some_elem (Some x))
  | LAppend l l' : list_call l (Append l') (l ++ l') Nothing
  | LInsert l1 x l2 : list_call (l1 ++ l2) (Insert_at (length l1) x) (l1 ++ x :: l2) Nothing
  | LSet l1 x y l2 : list_call (l1 ++ x :: l2) (Write_at (length l1) y) (l1 ++ y :: l2) Nothing.
(** A history of calls during which the limit is kept *)
Inductive list_calls {T} (m : limit) : list T -> list (icall T) -> list T -> list (ians T) -> Prop :=
  | LNone l : list_calls m l [] l []
  | LSome l c l1 a cs l2 rest : list_call l c l1 a -> fits m (length l1) -> list_calls m l1 cs l2 rest -> list_calls m l (c :: cs) l2 (a :: rest).
Definition resizes {T} (c : icall T) : bool := match c with TryResize _ => true | _ => false end.
