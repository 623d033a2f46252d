(** Specification vocabulary for conversions between the number spaces. *)
From Verif Require Export Spec_Stats Spec_Par Model_Complex.

(** The vector has one of the types for which the conversions are implemented: number space and domain are both fixed by the type, or both
    kept at run time ([GenDspVec]). *)
Definition typed {A} (v : dvec A) : Prop :=
  match number_space v, domain v with
  | NDyn _, DDyn _ => True
  | NDyn _, _ | _, DDyn _ => False
  | _, _ => True
  end.

(** What a change of the number space preserves: delta, domain, and whether the meta data is kept at run time. *)
Definition converted {A} (v v' : dvec A) : Prop :=
  delta v' = delta v /\ vdomain v' = vdomain v /\ typed v' /\
  ((exists b, number_space v' = NDyn b) <-> (exists b, number_space v = NDyn b)).

(** The vector is marked as invalid: empty, and [is_erroneous()] sees the NaN in its delta. *)
Definition poisoned {A} `{Num A} (v : dvec A) : Prop := len v = 0 /\ delta v = nnan.

(** A real vector is able to take [n] elements. *)
Definition takes {A} (v : dvec A) (n : nat) : Prop := is_complex v = false /\ wf_storage (data v) /\ can_hold (data v) n.
