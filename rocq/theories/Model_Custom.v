(** Model of the functions of interop/src/facade64.rs (facade32.rs is the same code for [f32]) which take a function pointer of the client. No proofs here. *)
From Verif Require Export Model_Foreign.
From Verif Require Import Model_MatOps.

(** [D] is what the [*const c_void] beside a function pointer leads to. The functions of the client are taken as mathematical functions: a function which changes
    what its data pointer leads to is not modelled. *)
(** facade64.rs:595-610, 1031-1140, 1184-1223, 1248-1286, 1309-1331, 1354-1374, 1403-1421 *)
Inductive custom (A D : Type) :=
| K_map_real (map : A -> nat -> A) | K_map_complex (map : A * A -> nat -> A * A)
| K_apply_window (window : D -> nat -> nat -> A) (data : D) (symmetric : bool)
| K_unapply_window (window : D -> nat -> nat -> A) (data : D) (symmetric : bool)
| K_windowed_fft (window : D -> nat -> nat -> A) (data : D) (symmetric : bool)
| K_windowed_sfft (window : D -> nat -> nat -> A) (data : D) (symmetric : bool)
| K_windowed_ifft (window : D -> nat -> nat -> A) (data : D) (symmetric : bool)
| K_windowed_sifft (window : D -> nat -> nat -> A) (data : D) (symmetric : bool)
| K_convolve_real (f : D -> A -> A) (data : D) (symmetric : bool) (ratio : A) (len : nat)
| K_convolve_complex (f : D -> A -> A * A) (data : D) (symmetric : bool) (ratio : A) (len : nat)
| K_multiply_real (f : D -> A -> A) (data : D) (symmetric : bool) (ratio : A)
| K_multiply_complex (f : D -> A -> A * A) (data : D) (symmetric : bool) (ratio : A)
| K_interpolatef (f : D -> A -> A) (data : D) (symmetric : bool) (factor delay : A) (len : nat)
| K_interpolate (f : D -> A -> A) (data : D) (symmetric : bool) (points : nat) (delay : A)
| K_interpolatei (f : D -> A -> A) (data : D) (symmetric : bool) (factor : Z).
Arguments K_map_real {A D}. Arguments K_map_complex {A D}. Arguments K_apply_window {A D}. Arguments K_unapply_window {A D}. Arguments K_windowed_fft {A D}.
Arguments K_windowed_sfft {A D}. Arguments K_windowed_ifft {A D}. Arguments K_windowed_sifft {A D}. Arguments K_convolve_real {A D}.
Arguments K_convolve_complex {A D}. Arguments K_multiply_real {A D}. Arguments K_multiply_complex {A D}. Arguments K_interpolatef {A D}.
Arguments K_interpolate {A D}. Arguments K_interpolatei {A D}.

Section custom.
Context {A : Type} `{Num A} `{Flt A} `{Rem A} `{Trig A} `{Math A} `{F : Fft A} `{RA : Rounding A} `{IsNan A} {D : Type}.
(** facade64.rs: map_inplace_real64 595-601, map_inplace_complex64 604-610, apply_custom_window64 1031-1045, unapply_custom_window64 1050-1064,
    windowed_custom_fft64 1069-1083, windowed_custom_sfft64 1088-1102, windowed_custom_ifft64 1107-1121, windowed_custom_sifft64 1126-1140,
    convolve_real64 1184-1200, convolve_complex64 1207-1223, multiply_frequency_response_real64 1248-1263, multiply_frequency_response_complex64 1270-1285,
    interpolatef_custom64 1309-1327, interpolate_custom64 1354-1371, interpolatei_custom64 1403-1418. [convolve] doesn't look at the symmetry (Model_Convolve.v). *)
Definition custom_call (e : env) (fits : nat -> bool) (c : custom A D) : ivec A -> run (ivec A * Z) :=
  foreign_call e fits
    match c with
    | K_map_real f => F_inplace (Map_inplace f)
    | K_map_complex f => F_inplace (Map_inplace_complex f)
    | K_apply_window f d y => F_inplace (Apply_window (foreign_window f d y))
    | K_unapply_window f d y => F_inplace (Unapply_window (foreign_window f d y))
    | K_windowed_fft f d y => F_buffered (Windowed_fft (foreign_window f d y))
    | K_windowed_sfft f d y => F_fallible (Windowed_sfft (foreign_window f d y))
    | K_windowed_ifft f d y => F_buffered (Windowed_ifft (foreign_window f d y))
    | K_windowed_sifft f d y => F_fallible (Windowed_sifft (foreign_window f d y))
    | K_convolve_real f d y ratio n => F_inplace_b (Convolve_real (r_calc (foreign_real_function f d y)) ratio n)
    | K_convolve_complex f d y ratio n => F_inplace_b (Convolve_complex (r_calc (foreign_complex_function f d y)) ratio n)
    | K_multiply_real f d y ratio => F_inplace (Multiply_real_response (foreign_real_function f d y) ratio)
    | K_multiply_complex f d y ratio => F_inplace (Multiply_complex_response (foreign_complex_function f d y) ratio)
    | K_interpolatef f d y factor delay n => F_inplace_b (Interpolatef (foreign_real_function f d y) factor delay n)
    | K_interpolate f d y n delay => F_interpolate_custom (foreign_real_function f d y) n delay
    | K_interpolatei f d y k => F_interpolatei_custom (foreign_real_function f d y) k
    end.
End custom.
