(** Rounding errors of the plain sums, independently of the code *)
From Verif Require Export Spec_Prec.

(** How many roundings one of [n] numbers goes through when they are added in registers of [w] numbers: the additions of the registers, those of the lanes,
    and those of the numbers outside of the registers. With larger registers there are fewer. *)
Definition depth (n w : nat) : nat := n / w + 2 * w.
(** The way the numbers go up and down until number [i], beginning at zero *)
Definition way (l : list R) (i : nat) : R := Rabs (nth 0%nat l 0%R) + Rsum (map (fun j => Rabs (nth (j + 1)%nat l 0%R - nth j l 0%R)) (seq 0 i)).
