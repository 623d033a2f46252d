(** The transforms of the foreign functions, in addition to the table of Spec_Named.v *)
From Verif Require Export Spec_Named Model_Interop.
Local Open Scope R_scope.
(** The windows which the foreign functions know: 0 is the triangular window, 1 is the Hamming window with alpha = 0.54, 2 is the Blackman-Harris window,
    all other numbers stand for the rectangular window. *)
Definition window_of_number (w : Z) : window R :=
  match w with 0%Z => triangular_window | 1%Z => hamming_default | 2%Z => blackman_harris_window | _ => rectangular_window end.
(** The transform which a foreign function carries out *)
Definition foreign_transform (f : foreign R) : option (buffered R) :=
  match f with
  | F_buffered op => Some op
  | F_windowed_fft w => Some (Windowed_fft (window_of_number w))
  | F_windowed_ifft w => Some (Windowed_ifft (window_of_number w))
  | _ => None
  end.
