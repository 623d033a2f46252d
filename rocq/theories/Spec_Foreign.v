(** Specification for a client of the C interface: numbers (C69) and the life of its vectors (C70) *)
From stdpp Require Import gmap.
From Verif Require Export Spec Spec_Complex Spec_Stats Spec_Par Spec_Interop Model_Foreign.
Local Open Scope nat_scope.

(** What is added up *)
Definition term {P} (square : P -> P) (op : summing) : P -> P := match op with Sum | Sum_prec => fun x => x | Sum_sq | Sum_sq_prec => square end.

Section client.
Context {A : Type}.
(** The vectors which a function takes over: those which are passed as [Box]. Also the getters and [clone64] take their vector over. *)
Definition handed_over (q : request A) : list nat :=
  match q with
  | R_delete h | R_call h _ _ | R_overwrite h _ | R_clone h | R_getter _ h _ | R_getter2 _ h _ _ => [h]
  | R_new _ _ _ _ _ | R_split_into _ _ | R_set_value _ _ _ | R_set_len _ _ | R_read _ => []
  end.
(** The vectors which a function changes in place *)
Definition changed_by (q : request A) : list nat :=
  match q with
  | R_getter _ _ d => [d] | R_getter2 _ _ d1 d2 => [d1; d2] | R_split_into _ ts => ts
  | R_set_value h _ _ | R_set_len h _ => [h]
  | _ => []
  end.
(** The vectors which a function only looks at *)
Definition looked_at (q : request A) : list nat :=
  match q with R_call _ refs _ => refs | R_split_into h _ => [h] | R_read refs => refs | _ => [] end.
(** The client uses what it holds, and nothing twice if it is changed or handed over. *)
Definition proper (held : gset nat) (q : request A) : Prop :=
  (forall h, h ∈ handed_over q \/ h ∈ changed_by q \/ h ∈ looked_at q -> h ∈ held) /\
  NoDup (handed_over q ++ changed_by q) /\ (forall h, h ∈ looked_at q -> h ∉ handed_over q /\ h ∉ changed_by q).
(** What the client holds afterwards: not what it handed over, and what it got *)
Definition held_after (held : gset nat) (q : request A) (returned : option nat) : gset nat :=
  (held ∖ list_to_set (handed_over q)) ∪ match returned with Some h => {[h]} | None => ∅ end.
(** The functions which return a vector *)
Definition returns_vector (q : request A) : Prop :=
  match q with R_new _ _ _ _ _ | R_call _ _ _ | R_overwrite _ _ | R_clone _ => True | _ => False end.

(** The allocator gives an address where nothing lives (the box which was handed over may be gone by then). *)
Definition unused (m : gmap nat (ivec A)) (q : request A) (fresh : nat) : Prop := m !! fresh = None \/ fresh ∈ handed_over q.

Context `{Num A} `{Flt A} `{Rem A} `{Trig A} `{Math A} `{F : Fft A} `{RA : Rounding A} `{IsNan A}.
Context (e : env) (fits : nat -> bool).
(** A life of a client: requests which are all proper, each served with some unused address *)
Inductive life : gmap nat (ivec A) -> gset nat -> gmap nat (ivec A) -> gset nat -> Prop :=
| life_nil m held : life m held m held
| life_cons m held q fresh m1 r m2 held2 :
    proper held q -> unused m q fresh -> serve e fits fresh m q = Served m1 r -> life m1 (held_after held q r) m2 held2 -> life m held m2 held2.
End client.
