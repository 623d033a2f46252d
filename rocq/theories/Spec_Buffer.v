(** What it means that an operation doesn't care about the content of its buffer, independently of the code. *)
From Verif Require Export Spec Model_Vec.

(** Two buffers of the same kind: what an earlier operation left in them may differ. Buffers which can grow may also have different lengths; the fixed
    ones have the same. *)
Definition alike {A} (b1 b2 : buffer A) : Prop :=
  match b1, b2 with
  | FixedLenBuffer s1, FixedLenBuffer s2 => length s1 = length s2
  | FixedLenBuffer _, _ | _, FixedLenBuffer _ => False
  | _, _ => True
  end.

(** Both calls panic, or both end with the same result *)
Definition same_run {X} (r1 r2 : run X) : Prop :=
  match r1, r2 with
  | Panicked, Panicked => True
  | Done x, Done y => x = y
  | _, _ => False
  end.

(** Both calls panic, or both end with the same vector (the storage behind the valid elements included) and with buffers which are alike *)
Definition same_vector {A V} (r1 r2 : run (V * buffer A)) : Prop :=
  match r1, r2 with
  | Panicked, Panicked => True
  | Done (v1, b1), Done (v2, b2) => v1 = v2 /\ alike b1 b2
  | _, _ => False
  end.
(** The same for operations which also return an error *)
Definition same_answer {A V} (r1 r2 : run (V * buffer A * result unit)) : Prop :=
  match r1, r2 with
  | Panicked, Panicked => True
  | Done (v1, b1, res1), Done (v2, b2, res2) => v1 = v2 /\ alike b1 b2 /\ res1 = res2
  | _, _ => False
  end.
