(** Model of the one place where the library computes a length in floating point. No proofs here.
    f64 is modelled by Flocq's [FLT] format: radix 2, 53 digits, minimal exponent -1074, round to nearest even. The range checked
    (lengths below 2^53) is far away from overflow, so infinities are not needed. *)
From Coq Require Export Reals ZArith.
From Flocq Require Export Core.

(** The number format of threading.rs:370-378 ([as f64]). *)
Definition f64_exp := FLT_exp (-1074) 53.
(** The rounding of threading.rs:370-378 ([as f64] and [/]). *)
Definition f64_round (x : R) : R := round radix2 f64_exp ZnearestE x.

(** threading.rs:374: [(array_length as f64 / number_of_chunks as f64).ceil() as usize]: each conversion and the division round;
    [ceil] is exact. *)
Definition f64_chunk_size (array_length number_of_chunks : Z) : Z :=
  Zceil (f64_round (f64_round (IZR array_length) / f64_round (IZR number_of_chunks))).
