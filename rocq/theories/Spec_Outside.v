(** When reorganising operations reach beyond the valid elements (C11). *)
From Verif Require Export Spec.

(** The elements of the storage of [v] from number [from] on are the spare ones; dealt out like the valid ones they have a place in the storages of [ts], *)
Definition spare_fits {A} (v : dvec A) (from : nat) (ts : list (dvec A)) : Prop :=
  forall i t, from <= i < alloc_len v -> ts !! (i mod length ts) = Some t -> i / length ts < alloc_len t.
(** or one of them has not. *)
Definition spare_lost {A} (v : dvec A) (from : nat) (ts : list (dvec A)) : Prop :=
  exists i t, from <= i < alloc_len v /\ ts !! (i mod length ts) = Some t /\ alloc_len t <= i / length ts.
