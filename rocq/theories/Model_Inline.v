(** Model of vector/src/inline_vector/{dynamic,fixed_size}.rs: the list type the library uses internally. No proofs here.
    The types of the library it is made of are modelled by their documented behaviour: [ArrayVec<T, 64>] is a list which panics when it would have more than
    64 elements, [Vec] is a list with a capacity. *)
From Verif Require Export Base.

(** inline_vector/mod.rs:10-19: with [std] the vectors may be on the heap, without it they are always in place *)
Inductive build := WithStd | WithoutStd.

(** dynamic.rs:14-17, fixed_size.rs:15-17; the number of a [Dynamic] is the capacity of the [Vec] *)
Inductive inline_vector (T : Type) := Inline (l : list T) | Dynamic (cap : nat) (l : list T).
Arguments Inline {_} _.
Arguments Dynamic {_} _ _.

(** dynamic.rs:15, fixed_size.rs:8 *)
Definition INLINE_CAPACITY := 64.

(** The calls: dynamic.rs:71-78, 80-85, 87-92, 128-132 (with the elements of the other vector), 134-141, 145-166; fixed_size.rs:67-73, 81-85, 75-79, 117-121, 123-129, 133-143;
    [index_mut]: dynamic.rs:181-186, fixed_size.rs:157-161 *)
Inductive icall (T : Type) := Push (x : T) | Pop | Remove (i : nat) | Append (l : list T) | Insert_at (i : nat) (x : T) | TryResize (n : nat) | Write_at (i : nat) (x : T).
Arguments Push {_} _.
Arguments Pop {_}.
Arguments Remove {_} _.
Arguments Append {_} _.
Arguments Insert_at {_} _ _.
Arguments TryResize {_} _.
Arguments Write_at {_} _ _.
(** The results of the calls *)
Inductive ians (T : Type) := Nothing | Some_elem (x : option T) | Resized (ok : bool).
Arguments Nothing {_}.
Arguments Some_elem {_} _.
Arguments Resized {_} _.

Section inline.
Context {T : Type} (zero : T).

(** dynamic.rs:42-48; fixed_size.rs:42-44 *)
Definition with_capacity (b : build) (n : nat) : inline_vector T :=
  match b with WithStd => if n <=? INLINE_CAPACITY then Inline [] else Dynamic n [] | WithoutStd => Inline [] end.
(** [&self[..]]: dynamic.rs:192-197, fixed_size.rs:167-171 *)
Definition ielems (v : inline_vector T) : list T := match v with Inline l => l | Dynamic _ l => l end.
(** dynamic.rs:94-99, fixed_size.rs:87-91 *)
Definition ilen (v : inline_vector T) : nat := length (ielems v).
(** dynamic.rs:105-110, fixed_size.rs:93-97 *)
Definition icapacity (v : inline_vector T) : nat := match v with Inline _ => INLINE_CAPACITY | Dynamic c _ => c end.
(** A [Vec] grows when it has to; how much is not specified, here it takes exactly what it needs (dynamic.rs:76) *)
Definition grow (c n : nat) : nat := Nat.max c n.
(** ArrayVec::push panics when it is full: dynamic.rs:71-78, fixed_size.rs:67-73 *)
Definition ipush (v : inline_vector T) (x : T) : run (inline_vector T) :=
  match v with
  | Inline l => _ ← assert_ (length l <? INLINE_CAPACITY); Done (Inline (l ++ [x]))
  | Dynamic c l => Done (Dynamic (grow c (length l + 1)) (l ++ [x]))
  end.
(** dynamic.rs:24-31, fixed_size.rs:24-31 *)
Definition of_size (b : build) (x : T) (n : nat) : run (inline_vector T) := loop n 0 (fun _ v => ipush v x) (with_capacity b n).
(** dynamic.rs:60-64, fixed_size.rs:56-60 *)
Definition with_elem (b : build) (x : T) : run (inline_vector T) := ipush (with_capacity b 1) x.
(** dynamic.rs:67-69, fixed_size.rs:63-65 *)
Definition iempty (b : build) : inline_vector T := with_capacity b 0.
(** dynamic.rs:80-85, fixed_size.rs:81-85 *)
Definition ipop (v : inline_vector T) : inline_vector T * option T :=
  let l := ielems v in let r := (take (length l - 1) l, l !! (length l - 1)) in
  (match v with Inline _ => Inline (fst r) | Dynamic c _ => Dynamic c (fst r) end, snd r).
(** dynamic.rs:87-92, fixed_size.rs:75-79: panics if there is no such element *)
Definition iremove (v : inline_vector T) (i : nat) : run (inline_vector T * T) :=
  x ← rd (ielems v) i;
  let l := take i (ielems v) ++ drop (i + 1) (ielems v) in
  Done (match v with Inline _ => Inline l | Dynamic c _ => Dynamic c l end, x).
(** dynamic.rs:134-141, fixed_size.rs:123-129: panics if the position is behind the end or the vector in place is full *)
Definition iinsert (v : inline_vector T) (i : nat) (x : T) : run (inline_vector T) :=
  _ ← assert_ (i <=? ilen v);
  let l := take i (ielems v) ++ [x] ++ drop i (ielems v) in
  match v with
  | Inline l' => _ ← assert_ (length l' <? INLINE_CAPACITY); Done (Inline l)
  | Dynamic c l' => Done (Dynamic (grow c (length l' + 1)) l)
  end.
(** dynamic.rs:128-132, fixed_size.rs:117-121: the other vector is emptied from the front *)
Fixpoint iappend (fuel : nat) (v other : inline_vector T) : run (inline_vector T * inline_vector T) :=
  if ilen other =? 0 then Done (v, other)
  else match fuel with
       | 0 => Done (v, other)
       | S fuel => '(other, x) ← iremove other 0; v ← ipush v x; iappend fuel v other
       end.
(** dynamic.rs:145-166, fixed_size.rs:133-143. Note that a vector in place keeps its length. *)
Definition itry_resize (v : inline_vector T) (n : nat) : inline_vector T * bool :=
  match v with
  | Inline l => (v, n <=? INLINE_CAPACITY)
  | Dynamic c l => if n <=? c then (Dynamic c (take n l ++ replicate (n - length l) zero), true) else (v, false)
  end.
(** [v[i] = x]: dynamic.rs:181-186, fixed_size.rs:157-161 *)
Definition iset (v : inline_vector T) (i : nat) (x : T) : run (inline_vector T) :=
  l ← wr (ielems v) i x;
  Done (match v with Inline _ => Inline l | Dynamic c _ => Dynamic c l end).
(** dynamic.rs:258-269, fixed_size.rs:226-236 ([collect]): default capacity, then one push per element *)
Definition from_iter (b : build) (l : list T) : run (inline_vector T) :=
  foldl (fun m x => v ← m; ipush v x) (Done (with_capacity b INLINE_CAPACITY)) l.

(** One call; [Append l] is called with a vector of the elements [l] *)
Definition icall_do (v : inline_vector T) (c : icall T) : run (inline_vector T * ians T) :=
  match c with
  | Push x => v ← ipush v x; Done (v, Nothing)
  | Pop => let '(v, x) := ipop v in Done (v, Some_elem x)
  | Remove i => '(v, x) ← iremove v i; Done (v, Some_elem (Some x))
  | Append l => '(v, _) ← iappend (length l) v (Dynamic (length l) l); Done (v, Nothing)
  | Insert_at i x => v ← iinsert v i x; Done (v, Nothing)
  | TryResize n => let '(v, ok) := itry_resize v n in Done (v, Resized ok)
  | Write_at i x => v ← iset v i x; Done (v, Nothing)
  end.
(** A history of calls, with the answers *)
Fixpoint icalls (v : inline_vector T) (cs : list (icall T)) : run (inline_vector T * list (ians T)) :=
  match cs with
  | [] => Done (v, [])
  | c :: cs => '(v, a) ← icall_do v c; '(v, rest) ← icalls v cs; Done (v, a :: rest)
  end.
End inline.
