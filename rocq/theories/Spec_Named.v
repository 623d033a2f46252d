(** What the methods with a name compute: a table in terms of numbers only. It is used for the methods of the matrices (row by row) and for the functions of the
    foreign interface, and says the same about the vectors. The numbers are the real numbers (no rounding); the functions of the standard library ([rmath], [rpowf],
    ...) are whatever the platform computes. *)
From Verif Require Export Spec_Matrix Spec_Approx Spec_Real Spec_Interp Spec_Sum Spec_Stats Spec_Complex Spec_Window NumsR NumsTrig.
From Verif Require Export Model_MatOps.
Local Open Scope R_scope.
Local Notation C := (R * R)%type.

(** [l'] begins like [l]; a step of more than half of [d] is replaced by its remainder, less a whole [d] (steps up) or plus a whole [d] (steps down).
    The step is measured from the value which the predecessor has in [l']. *)
Definition folded_steps (d : R) (l l' : list R) : Prop :=
  length l' = length l /\ l' !! 0%nat = l !! 0%nat /\
  forall i x y, l !! (i + 1)%nat = Some x -> l' !! i = Some y ->
    l' !! (i + 1)%nat = Some (
      if Rlt_dec (d / 2) (x - y) then y + ((x - y - d * IZR (turns d (x - y))) - d)
      else if Rlt_dec (x - y) (- (d / 2)) then y + ((x - y - d * IZR (turns d (x - y))) + d) else x).

Section named.
Context `{Math R}.

(** The methods which change a vector in place: what they make of the real numbers [l] ... *)
Definition makes_of_reals (op : inplace R) (l l' : list R) : Prop :=
  match op with
  | Scale x => l' = map (fun y => y * x) l
  | Offset x => l' = map (fun y => y + x) l
  | Reverse => l' = rev l
  | Swap_halves | Fft_shift => rotated_by (length l / 2) l l'
  | Ifft_shift => rotated_by (length l - length l / 2) l l'
  | Diff => differences Rminus l l'
  | Diff_with_start => differences_with_start Rminus l l'
  | Cum_sum => prefix_sums Rplus 0 l l'
  | Elementary f => l' = map (rmath f) l
  | Sqrt => l' = map R_sqrt.sqrt l
  | Square => l' = map (fun x => x * x) l
  | Root d => l' = map (fun x => rpowf x (1 / d)) l
  | Powf y => l' = map (fun x => rpowf x y) l
  | Log b => l' = map (fun x => rlog x b) l
  | Expf b => l' = map (fun x => rpowf b x) l
  | Map_inplace f => l' = imap (fun i x => f x i) l
  | Abs => l' = map Rabs l
  | Wrap d => l' = map (fun x => x - d * IZR (turns d x)) l
  | Unwrap d => folded_steps d l l'
  | Approximated f => l' = map (by_way_of_ln f) l
  | Apply_window w => windowed Rmult (w_fun w) l l'
  | Unapply_window w => windowed Rmult (fun i n => 1 / w_fun w i n) l l'
  | Multiply_real_response h ratio => responded (fun x y => x * (ratio * y)) (r_calc h) ratio l l'
  | Decimatei k d => every k d l l'
  | Set_delta _ => l' = l
  | Scale_complex _ | Offset_complex _ | Map_inplace_complex _ | Multiply_complex_exponential _ _ | Conj | Multiply_complex_response _ _ => False
  end.
(** ... and of the complex numbers [c]; [delta] is the distance of two points. *)
Definition makes_of_complex (op : inplace R) (delta : R) (c c' : list C) : Prop :=
  match op with
  | Scale x => c' = map (fun z => (fst z * x, snd z * x)) c
  | Offset x => c' = map (fun z => (fst z + x, snd z)) c
  | Scale_complex x => c' = map (fun z => complex_product z x) c
  | Offset_complex x => c' = map (fun z => complex_sum z x) c
  | Reverse => c' = rev c
  | Swap_halves | Fft_shift => rotated_by (length c / 2) c c'
  | Ifft_shift => rotated_by (length c - length c / 2) c c'
  | Diff => differences complex_difference c c'
  | Diff_with_start => differences_with_start complex_difference c c'
  | Cum_sum => prefix_sums complex_sum (0, 0) c c'
  | Elementary f => c' = map (cmath f) c
  | Sqrt => c' = map Rcsqrt c
  | Square => c' = map (fun z => complex_product z z) c
  | Root d => c' = map (fun x => cpowf x (1 / d)) c
  | Powf y => c' = map (fun x => cpowf x y) c
  | Log b => c' = map (fun x => clog x b) c
  | Expf b => c' = map (fun x => cexpf x b) c
  | Map_inplace_complex f => c' = imap (fun i x => f x i) c
  | Multiply_complex_exponential a b =>
      c' = imap (fun i z => let phi := (a * INR i + b) * delta in (fst z * cos phi - snd z * sin phi, fst z * sin phi + snd z * cos phi)) c
  | Conj => c' = map (fun z => (fst z, - snd z)) c
  | Apply_window w => windowed (fun z y => complex_product z (y, 0)) (w_fun w) c c'
  | Unapply_window w => windowed (fun z y => complex_product z (y, 0)) (fun i n => 1 / w_fun w i n) c c'
  | Multiply_real_response h ratio => responded (fun z y => (fst z * (ratio * y), snd z * (ratio * y))) (r_calc h) ratio c c'
  | Multiply_complex_response h ratio => responded (fun z y => complex_product z (ratio * fst y, ratio * snd y)) (r_calc h) ratio c c'
  | Decimatei k d => every k d c c'
  | Set_delta _ => c' = c
  | Map_inplace _ | Abs | Wrap _ | Unwrap _ | Approximated _ => False
  end.
End named.

(** Methods which exist for real numbers only, or for complex numbers only *)
Definition for_reals (op : inplace R) : Prop :=
  match op with
  | Scale_complex _ | Offset_complex _ | Map_inplace_complex _ | Multiply_complex_exponential _ _ | Conj | Multiply_complex_response _ _ => False
  | _ => True
  end.
Definition for_complex (op : inplace R) : Prop :=
  match op with Map_inplace _ | Abs | Wrap _ | Unwrap _ | Approximated _ => False | _ => True end.

(** When row [i] may be used: the register type is one that exists, the memory is aligned as allocators align it, the row is not empty, and its storage holds
    whole points. *)
Definition row_ready (e : env) (i : nat) (v : dvec R) : Prop :=
  reg_ok (e_reg e) /\ elem_aligned (e_reg e) (e_addr e i) /\ address_ok (e_reg e) (e_addr e i) v /\ len v <> 0%nat /\ whole_points v.
(** What some methods need in addition *)
Definition callable (e : env) (op : inplace R) (v : dvec R) : Prop :=
  match op with
  | Ifft_shift => points v <> 1%nat
  | Apply_window w | Unapply_window w => w_symmetric w = true -> mirrored (w_fun w) (points v) /\ pairs_up (e_set e) (points v)
  | Multiply_real_response h _ => vdomain v = Frequency /\ (r_symmetric h = true -> even_function (r_calc h) /\ enough_pieces (e_set e) (points v))
  | Multiply_complex_response h _ => vdomain v = Frequency /\ (r_symmetric h = true -> even_function (r_calc h) /\ enough_pieces (e_set e) (points v))
  | Decimatei k _ => (0 < k)%nat
  | _ => True
  end.
(** The meta data stay as they are; only [set_delta] changes the delta. *)
Definition keeps_meta (op : inplace R) (v v' : dvec R) : Prop :=
  delta v' = match op with Set_delta d => d | _ => delta v end /\ domain v' = domain v /\ number_space v' = number_space v.

(** The method which a matrix really uses: [diff_with_start] and [cum_sum] are [diff]. *)
Definition used_by_matrix (op : inplace R) : inplace R := match op with Diff_with_start | Cum_sum => Diff | op => op end.
(** The method which the foreign interface really uses: [atan] is [tan]. *)
Definition used_by_foreign (op : inplace R) : inplace R := match op with Elementary Atan => Elementary Tan | op => op end.

(** Binary operations *)
Definition real_operation (op : binary) : R -> R -> R :=
  match op with Add | Add_smaller => Rplus | Sub | Sub_smaller => Rminus | Mul | Mul_smaller => Rmult | Div | Div_smaller => Rdiv end.
Definition complex_operation (op : binary) : C -> C -> C :=
  match op with Add | Add_smaller => complex_sum | Sub | Sub_smaller => complex_difference | Mul | Mul_smaller => complex_product
  | Div | Div_smaller => complex_quotient end.
(** The operations with a smaller operand repeat it. *)
Definition repeats (op : binary) : bool := match op with Add | Sub | Mul | Div => false | _ => true end.
(** The lengths fit. *)
Definition fits_length (op : binary) (n m : nat) : Prop := if repeats op then m <> 0%nat /\ (n mod m = 0)%nat else n = m.

(** Conversions of complex numbers to real ones *)
Definition converts (op : conversion) : C -> R :=
  match op with
  | Magnitude => fun z => R_sqrt.sqrt (fst z * fst z + snd z * snd z)
  | Magnitude_squared => fun z => fst z * fst z + snd z * snd z
  | To_real => fst
  | To_imag => snd
  | Phase => fun z => Ratan2 (snd z) (fst z)
  | _ => fun _ => 0
  end.
Definition to_numbers (op : conversion) : Prop := match op with Rededicate_from_force _ | Rededicate_with_runtime_data _ _ _ => False | _ => True end.
Definition gets (op : getter) : C -> R :=
  match op with Get_real => fst | Get_imag => snd | Get_magnitude => converts Magnitude | Get_magnitude_squared => converts Magnitude_squared
  | Get_phase => converts Phase end.
(** The getter which a matrix really uses *)
Definition getter_of_matrix (op : getter) : getter := match op with Get_real => Get_real | _ => Get_imag end.
Definition gets2 (op : getter2) : (C -> R) * (C -> R) :=
  match op with Get_real_imag => (fst, snd) | Get_mag_phase => (converts Magnitude, converts Phase) end.
Definition composes (op : setter2) : R -> R -> C :=
  match op with Set_real_imag => fun x y => (x, y) | Set_mag_phase => fun r phi => (r * cos phi, r * sin phi) end.

(** Sums and products *)
Definition summand (op : summing) : R -> R := match op with Sum | Sum_prec => fun x => x | Sum_sq | Sum_sq_prec => fun x => x * x end.

(** The transforms of complex vectors *)
Definition conjugate_points (c : list C) : list C := map (fun z => (fst z, - snd z)) c.
Definition transforms (op : buffered R) (c c' : list C) : Prop :=
  match op with
  | Plain_fft => c' = dft (-1) c
  | FFT => rotated_by (length c / 2) (dft (-1) c) c'
  | Windowed_fft w => exists c1, windowed (fun z y => complex_product z (y, 0)) (w_fun w) c c1 /\ rotated_by (length c / 2) (dft (-1) c1) c'
  | Plain_ifft => c' = dft 1 c
  | IFFT => exists c1, rotated_by (length c - length c / 2) (map (fun z => (fst z * (1 / INR (length c)), snd z * (1 / INR (length c)))) c) c1 /\ c' = dft 1 c1
  | Windowed_ifft w => exists c1, rotated_by (length c - length c / 2) (map (fun z => (fst z * (1 / INR (length c)), snd z * (1 / INR (length c)))) c) c1 /\
      windowed (fun z y => complex_product z (y, 0)) (fun i n => 1 / w_fun w i n) (dft 1 c1) c'
  | Prepare_argument => c' = conjugate_points (dft (-1) c)
  | Prepare_argument_padded =>
      c' = conjugate_points (dft (-1) (padded (0, 0) Surround ((2 * length c - 1 - length c + 1) / 2) (2 * length c - 1) c))
  | Magnitude_b | Magnitude_squared_b | To_real_b | To_imag_b | Phase_b | To_complex_b => False
  end.
(** The domain which they expect, what the buffer has to offer, and what some of them need in addition *)
Definition transformable `{Fft R} (e : env) (op : buffered R) (b : buffer R) (v : dvec R) : Prop :=
  let n := points v in
  match op with
  | Plain_fft | FFT | Windowed_fft _ | Prepare_argument | Prepare_argument_padded => vdomain v = Time
  | _ => vdomain v = Frequency
  end /\
  match op with
  | Prepare_argument_padded => (2 <= n)%nat /\ lends b v (2 * (2 * n - 1)) /\ spare b (2 * fft_inplace_scratch_len (2 * n - 1))
  | _ => spare b (2 * fft_inplace_scratch_len n)
  end /\
  match op with
  | IFFT => n <> 1%nat
  | Windowed_fft w => w_symmetric w = true -> mirrored (w_fun w) n /\ pairs_up (e_set e) n
  | Windowed_ifft w => n <> 1%nat /\ (w_symmetric w = true -> mirrored (w_fun w) n /\ pairs_up (e_set e) n)
  | Magnitude_b | Magnitude_squared_b | To_real_b | To_imag_b | Phase_b | To_complex_b => False
  | _ => True
  end.
(** The conversions with a buffer *)
Definition unbuffered (op : buffered R) : option conversion :=
  match op with Magnitude_b => Some Magnitude | Magnitude_squared_b => Some Magnitude_squared | To_real_b => Some To_real | To_imag_b => Some To_imag
  | Phase_b => Some Phase | _ => None end.
