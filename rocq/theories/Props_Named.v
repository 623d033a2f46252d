(** C65: what the methods of vectors, matrices and the foreign functions compute, from the name of the method to the numbers. *)
From Verif Require Import Props_Fft Props_Matrix Props_Interop Proof_Named Proof_NamedFft Proof_NamedRows.
From Verif Require Import Spec_Named Model_Interop.
From Verif Require Import Model_MatOps.
From stdpp Require Import tactics.
Local Open Scope R_scope.
Local Notation C := (R * R)%type.

(** ** Vectors *)
Theorem C65_reals : forall `{Math R} e op i (v : dvec R) l, row_ready e i v -> for_reals op -> callable e op v -> reals v l ->
  exists v' l', vec_inplace e op i v = Done v' /\ reals v' l' /\ makes_of_reals op l l' /\ keeps_meta op v v'.
Proof. exact @inplace_reals. Qed.
Print Assumptions C65_reals.
Theorem C65_complex : forall `{Math R} e op i (v : dvec R) c, row_ready e i v -> for_complex op -> callable e op v -> cplx v c ->
  exists v' c', vec_inplace e op i v = Done v' /\ cplx v' c' /\ makes_of_complex op (delta v) c c' /\ keeps_meta op v v'.
Proof. exact @inplace_complex. Qed.
Print Assumptions C65_complex.
Theorem C65_binary : forall e op i (v o : dvec R), row_ready e i v -> meta_agree v o -> fits_length op (len v) (len o) ->
  (forall l lo, reals v l -> reals o lo ->
     exists v' l', vec_binary e op i v o = Done (v', Ok tt) /\ reals v' l' /\ same_meta v v' /\ combined_cyclic (real_operation op) l lo l') /\
  (forall c co, cplx v c -> cplx o co ->
     exists v' c', vec_binary e op i v o = Done (v', Ok tt) /\ cplx v' c' /\ same_meta v v' /\ combined_cyclic (complex_operation op) c co c').
Proof.
  intros e op i v o Hr Hm Hf. split; intros l lo Hv Ho; [exact (binary_reals e op i v o l lo Hr Hv Ho Hm Hf) | exact (binary_complex e op i v o l lo Hr Hv Ho Hm Hf)].
Qed.
Print Assumptions C65_binary.
Theorem C65_conversions : forall op (v : dvec R) c, to_numbers op -> typed v -> cplx v c ->
  exists v', vec_conversion op v = Done v' /\ reals v' (map (converts op) c) /\ converted v v'.
Proof. exact @conversion_numbers. Qed.
Print Assumptions C65_conversions.
Theorem C65_conversions_b : forall `{F : Fft R} e op k i b (v : dvec R) c, unbuffered op = Some k -> row_ready e i v -> typed v -> lends b v (length c) -> cplx v c ->
  exists v' b', vec_buffered e op i b v = Done (v', b') /\ reals v' (map (converts k) c) /\ converted v v'.
Proof. exact @buffered_numbers. Qed.
Print Assumptions C65_conversions_b.
Theorem C65_transforms : forall `{F : Fft R}, computes_dft -> forall e op i b (v : dvec R) c,
  row_ready e i v -> typed v -> aligned_all (e_reg e) (e_addr e i) -> transformable e op b v -> cplx v c ->
  exists v' b' c', vec_buffered e op i b v = Done (v', b') /\ cplx v' c' /\ transforms op c c'.
Proof. exact @transform_values. Qed.
Print Assumptions C65_transforms.
Theorem C65_getters : forall e op i (v dst : dvec R) c, row_ready e i v -> typed v -> alloc_len v = len v -> takes dst (len v) -> cplx v c ->
  exists dst', vec_getter e op i v dst = Done dst' /\ reals dst' (map (gets op) c) /\ delta dst' = delta v /\ domain dst' = domain dst /\
    number_space dst' = number_space dst.
Proof. exact @getter_numbers. Qed.
Print Assumptions C65_getters.
Theorem C65_getters2 : forall op (v d1 d2 : dvec R) c, cplx v c -> takes d1 (length c) -> takes d2 (length c) ->
  exists d1' d2', vec_getter2 op v d1 d2 = Done (d1', d2') /\ reals d1' (map (fst (gets2 op)) c) /\ reals d2' (map (snd (gets2 op)) c) /\
    same_meta d1 d1' /\ same_meta d2 d2'.
Proof. exact @getter2_numbers. Qed.
Print Assumptions C65_getters2.
Theorem C65_setters2 : forall op (v x y : dvec R) lx ly, is_complex v = true -> s_kind (data v) = KVec -> reals x lx -> reals y ly ->
  length lx = length ly -> takes x (length lx) -> takes y (length lx) ->
  exists v', vec_setter2 op v x y = Done (v', Ok tt) /\ cplx v' (zip_with (composes op) lx ly) /\ same_meta v v'.
Proof. exact @setter2_numbers. Qed.
Print Assumptions C65_setters2.
Theorem C65_sums : forall e op i (v : dvec R) l, row_ready e i v -> reals v l -> vec_sum_op e op i v = Done (sum_of Rplus 0 (map (summand op) l)).
Proof. exact @sum_numbers. Qed.
Print Assumptions C65_sums.
Theorem C65_dot_products : forall e op i (v o : dvec R) l lo, row_ready e i v -> len v = len o -> reals v l -> reals o lo ->
  vec_dot_op e op i v o = Done (Ok (sum_of Rplus 0 (zip_with Rmult l lo))).
Proof. exact @dot_numbers. Qed.
Print Assumptions C65_dot_products.
Theorem C65_statistics : forall e op i (v : dvec R) l, reals v l -> l <> [] ->
  (exists st, vec_stat_op e op i v = Done st /\ totals_of l st) /\
  (forall k, (0 < k <= 16)%nat -> exists sts, vec_split_op e op i v k = Done (Ok sts) /\ length sts = k /\
     forall b, (b < k)%nat -> exists lb st, is_bucket k b l lb /\ sts !! b = Some st /\ totals_of lb st).
Proof. intros e op i v l Hv Hne. split; [exact (stat_numbers e op i v l Hv Hne) | intros k Hk; exact (split_numbers e op i v l k Hv Hne Hk)]. Qed.
Print Assumptions C65_statistics.

(** ** Matrices *)
(** [used_by_matrix]: [cum_sum] and [diff_with_start] of a matrix compute the differences, see C39. *)
Theorem C65_matrix_reals : forall `{Math R} e op (m : matrix R) ls, real_rows m ls -> for_reals op ->
  (forall i v, m !! i = Some v -> row_ready e i v /\ callable e op v) ->
  exists m' ls', mat_inplace e op m = Done m' /\ real_rows m' ls' /\ Forall2 (makes_of_reals (used_by_matrix op)) ls ls'.
Proof. exact @matrix_reals. Qed.
Print Assumptions C65_matrix_reals.
Theorem C65_matrix_complex : forall `{Math R} e op d (m : matrix R) cs, complex_rows m cs -> for_complex op ->
  (forall i v, m !! i = Some v -> row_ready e i v /\ callable e op v /\ delta v = d) ->
  exists m' cs', mat_inplace e op m = Done m' /\ complex_rows m' cs' /\ Forall2 (makes_of_complex (used_by_matrix op) d) cs cs'.
Proof. exact @matrix_complex. Qed.
Print Assumptions C65_matrix_complex.
Theorem C65_matrix_binary_reals : forall e op (m o : matrix R) ls los, real_rows m ls -> real_rows o los -> length o = length m ->
  (forall i v w, m !! i = Some v -> o !! i = Some w -> row_ready e i v /\ meta_agree v w /\ fits_length op (len v) (len w)) ->
  exists m' ls', mat_binary e op m o = Done (m', Ok tt) /\ real_rows m' ls' /\ length ls' = length ls /\
    forall i l lo l', ls !! i = Some l -> los !! i = Some lo -> ls' !! i = Some l' -> combined_cyclic (real_operation op) l lo l'.
Proof. exact @matrix_binary_reals. Qed.
Print Assumptions C65_matrix_binary_reals.
Theorem C65_matrix_binary_complex : forall e op (m o : matrix R) ls los, complex_rows m ls -> complex_rows o los -> length o = length m ->
  (forall i v w, m !! i = Some v -> o !! i = Some w -> row_ready e i v /\ meta_agree v w /\ fits_length op (len v) (len w)) ->
  exists m' ls', mat_binary e op m o = Done (m', Ok tt) /\ complex_rows m' ls' /\ length ls' = length ls /\
    forall i l lo l', ls !! i = Some l -> los !! i = Some lo -> ls' !! i = Some l' -> combined_cyclic (complex_operation op) l lo l'.
Proof. exact @matrix_binary_complex. Qed.
Print Assumptions C65_matrix_binary_complex.
Theorem C65_matrix_conversions : forall k op (m : matrix R) cs, complex_rows m cs -> to_numbers op -> (forall v, v ∈ m -> typed v) ->
  exists m', mat_conversion k op m = Done m' /\ real_rows m' (map (map (converts op)) cs).
Proof. exact @matrix_conversion. Qed.
Print Assumptions C65_matrix_conversions.
Theorem C65_matrix_getters : forall e op (m dst : matrix R) cs, complex_rows m cs -> length dst = length m ->
  (forall i v d, m !! i = Some v -> dst !! i = Some d -> row_ready e i v /\ typed v /\ alloc_len v = len v /\ takes d (len v)) ->
  exists dst', mat_getter e op m dst = Done dst' /\ real_rows dst' (map (map (gets (getter_of_matrix op))) cs).
Proof. exact @matrix_getter. Qed.
Print Assumptions C65_matrix_getters.
Theorem C65_matrix_sums : forall e k op (m : matrix R) ls, rows_ok k m -> real_rows m ls -> (forall i v, m !! i = Some v -> row_ready e i v) ->
  mat_sum e k op m = Done (map (fun l => sum_of Rplus 0 (map (summand op) l)) ls).
Proof. exact @matrix_sums. Qed.
Print Assumptions C65_matrix_sums.
Theorem C65_matrix_dot_products : forall e op (m o : matrix R) ls los, real_rows m ls -> real_rows o los -> length o = length m ->
  (forall i v w, m !! i = Some v -> o !! i = Some w -> row_ready e i v /\ len v = len w) ->
  mat_dot e op m o = Done (Ok (zip_with (fun l lo => sum_of Rplus 0 (zip_with Rmult l lo)) ls los)).
Proof. exact @matrix_dots. Qed.
Print Assumptions C65_matrix_dot_products.

(** ** Foreign functions *)
(** [used_by_foreign]: [atan] computes the tangent, see C40. *)
Theorem C65_foreign_reals : forall `{Math R} `{F : Fft R} `{RA : Rounding R} `{IsNan R} e fits op (x : ivec R) l,
  reals (i_vec x) l -> for_reals op -> row_ready e 0 (i_vec x) -> callable e op (i_vec x) ->
  exists y code l', foreign_call e fits (F_inplace op) x = Done (y, code) /\ reals (i_vec y) l' /\ i_buf y = i_buf x /\
    makes_of_reals (used_by_foreign op) l l' /\ (code = 0%Z \/ (len (i_vec y) = 0%nat /\ nisnan (delta (i_vec y)) = true)).
Proof. exact @foreign_reals. Qed.
Print Assumptions C65_foreign_reals.
Theorem C65_foreign_complex : forall `{Math R} `{F : Fft R} `{RA : Rounding R} `{IsNan R} e fits op (x : ivec R) c,
  cplx (i_vec x) c -> for_complex op -> row_ready e 0 (i_vec x) -> callable e op (i_vec x) ->
  exists y code c', foreign_call e fits (F_inplace op) x = Done (y, code) /\ cplx (i_vec y) c' /\ i_buf y = i_buf x /\
    makes_of_complex (used_by_foreign op) (delta (i_vec x)) c c' /\ (code = 0%Z \/ (len (i_vec y) = 0%nat /\ nisnan (delta (i_vec y)) = true)).
Proof. exact @foreign_complex. Qed.
Print Assumptions C65_foreign_complex.
Theorem C65_foreign_binary : forall `{Math R} `{F : Fft R} `{RA : Rounding R} `{IsNan R} e fits op (x o : ivec R), row_ready e 0 (i_vec x) ->
  meta_agree (i_vec x) (i_vec o) -> fits_length op (len (i_vec x)) (len (i_vec o)) -> nisnan (delta (i_vec x)) = false ->
  (forall l lo, reals (i_vec x) l -> reals (i_vec o) lo ->
     exists y l', foreign_call e fits (F_binary op o) x = Done (y, 0%Z) /\ reals (i_vec y) l' /\ i_buf y = i_buf x /\
       combined_cyclic (real_operation op) l lo l') /\
  (forall c co, cplx (i_vec x) c -> cplx (i_vec o) co ->
     exists y c', foreign_call e fits (F_binary op o) x = Done (y, 0%Z) /\ cplx (i_vec y) c' /\ i_buf y = i_buf x /\
       combined_cyclic (complex_operation op) c co c').
Proof.
  intros M F RA N e fits op x o Hr Hm Hf Hn. split; intros l lo Hv Ho;
    [exact (foreign_binary_reals e fits op x o l lo Hr Hv Ho Hm Hf Hn) | exact (foreign_binary_complex e fits op x o l lo Hr Hv Ho Hm Hf Hn)].
Qed.
Print Assumptions C65_foreign_binary.

(** ** Examples *)
Lemma ready_here i (v : dvec R) : len v <> 0%nat -> whole_points v -> row_ready quiet i v.
Proof.
  intros Hl Hw. split; [split; [apply Nat.lt_0_succ|split; [apply Nat.lt_0_succ|reflexivity]]|]. split; [reflexivity|]. split; [|split; assumption].
  left. split; [reflexivity|]. intros _. reflexivity.
Qed.
(** The rows [1; 2; 4] and [3; 5; 9] *)
Definition two_rows : matrix R := [mat_vec NReal DTime [1; 2; 4]; mat_vec NReal DTime [3; 5; 9]].
Lemma two_rows_numbers : real_rows two_rows [[1; 2; 4]; [3; 5; 9]].
Proof. constructor; [split; reflexivity|]. constructor; [split; reflexivity|constructor]. Qed.
Lemma two_rows_ready i v : two_rows !! i = Some v -> row_ready quiet i v.
Proof. destruct i as [|[|i]]; cbn; intros E; try discriminate E; injection E as <-; apply ready_here; discriminate. Qed.
(** [wrap 4], as the matrix method, and the sums of the squares *)
Example C65_matrix_example : forall `{Math R}, exists m' ls', mat_inplace quiet (Wrap 4) two_rows = Done m' /\ real_rows m' ls' /\
  Forall2 (makes_of_reals (Wrap 4)) [[1; 2; 4]; [3; 5; 9]] ls'.
Proof. intros M. apply (C65_matrix_reals quiet (Wrap 4) two_rows _ two_rows_numbers I). intros i v E. split; [exact (two_rows_ready i v E) | exact I]. Qed.
Example C65_matrix_sums_example : mat_sum quiet MatrixMxN Sum_sq two_rows = Done [21; 115].
Proof.
  rewrite (C65_matrix_sums quiet MatrixMxN Sum_sq two_rows [[1; 2; 4]; [3; 5; 9]] I two_rows_numbers two_rows_ready). cbn. f_equal. f_equal; [lra|]. f_equal. lra.
Qed.
(** A row minus a shorter vector, which is repeated: [5; 6; 7; 8] - [1; 2] *)
Example C65_binary_example : exists v' l', vec_binary quiet Sub_smaller 0 (mat_vec NReal DTime [5; 6; 7; 8]) (mat_vec NReal DTime [1; 2]) = Done (v', Ok tt) /\
  reals v' l' /\ combined_cyclic Rminus [5; 6; 7; 8] [1; 2] l'.
Proof.
  destruct (C65_binary quiet Sub_smaller 0 (mat_vec NReal DTime [5; 6; 7; 8]) (mat_vec NReal DTime [1; 2])) as [Hx _].
  - apply ready_here; discriminate.
  - split; [reflexivity|]. split; [reflexivity|]. cbn [delta mat_vec n1 Rnum]. split; apply Rltb_false; cbn; lra.
  - split; [discriminate|reflexivity].
  - destruct (Hx [5; 6; 7; 8] [1; 2]) as (v' & l' & E & D & _ & P); [split; reflexivity|split; reflexivity|]. exists v', l'. split; [exact E|]. split; [exact D|exact P].
Qed.
(** The magnitude of 3 + 4i *)
Example C65_conversions_example : exists v', vec_conversion Magnitude (mat_vec NComplex DTime [3; 4]) = Done v' /\ reals v' [5].
Proof.
  destruct (C65_conversions Magnitude (mat_vec NComplex DTime [3; 4]) [(3, 4)] I I) as (v' & E & D & _); [split; reflexivity|].
  exists v'. split; [exact E|]. cbn [map converts fst snd] in D. replace (3 * 3 + 4 * 4) with (5 * 5) in D by lra. rewrite sqrt_square in D by lra. exact D.
Qed.
(** The transform of two points *)
Example C65_transforms_example : exists v' b' c', vec_buffered (F := exact_fft) quiet IFFT 0 NoBuffer (mat_vec NComplex DFreq [1; 0; 0; 1]) = Done (v', b') /\
  cplx v' c' /\ transforms IFFT [(1, 0); (0, 1)] c'.
Proof.
  apply (C65_transforms (F := exact_fft) exact_fft_computes quiet IFFT 0 NoBuffer (mat_vec NComplex DFreq [1; 0; 0; 1])).
  - apply ready_here; [discriminate|]. intros _. reflexivity.
  - exact I.
  - split; [split; [apply Nat.lt_0_succ|split; [apply Nat.lt_0_succ|reflexivity]]|]. split; [reflexivity|]. split; reflexivity.
  - split; [reflexivity|]. split; [exact I|discriminate].
  - split; reflexivity.
Qed.
(** [sqrt64] of a vector, called through the foreign interface *)
Example C65_foreign_example : forall `{Math R} `{IsNan R}, exists y code l',
  foreign_call (F := exact_fft) quiet (fun _ => true) (F_inplace Sqrt) (IVec (mat_vec NReal DTime [4; 9]) (SingleBuffer [])) = Done (y, code) /\
  reals (i_vec y) l' /\ l' = [2; 3].
Proof.
  intros M N. destruct (C65_foreign_reals (F := exact_fft) quiet (fun _ => true) Sqrt (IVec (mat_vec NReal DTime [4; 9]) (SingleBuffer [])) [4; 9]) as (y & code & l' & E & D & _ & P & _).
  - split; reflexivity.
  - exact I.
  - apply ready_here; discriminate.
  - exact I.
  - exists y, code, l'. split; [exact E|]. split; [exact D|]. cbn in P. rewrite P. replace 4 with (2 * 2) by lra. replace 9 with (3 * 3) by lra. by rewrite !sqrt_square by lra.
Qed.
Lemma agree_here (ns : nspace) (a b : list R) : meta_agree (mat_vec ns DTime a) (mat_vec ns DTime b).
Proof. split; [reflexivity|]. split; [reflexivity|]. cbn [delta mat_vec n1 Rnum]. split; apply Rltb_false; cbn; lra. Qed.
Example C65_reals_example : forall `{Math R}, exists v' l', vec_inplace quiet (Decimatei 2 1) 0 (mat_vec NReal DTime [1; 2; 3; 4]) = Done v' /\ reals v' l' /\
  makes_of_reals (Decimatei 2 1) [1; 2; 3; 4] l' /\ keeps_meta (Decimatei 2 1) (mat_vec NReal DTime [1; 2; 3; 4]) v'.
Proof.
  intros M. apply (C65_reals quiet (Decimatei 2 1) 0 (mat_vec NReal DTime [1; 2; 3; 4])); [apply ready_here; discriminate|exact I|apply Nat.lt_0_succ|split; reflexivity].
Qed.
Example C65_complex_example : forall `{Math R}, exists v' c', vec_inplace quiet Conj 0 (mat_vec NComplex DTime [1; 2; 3; 4]) = Done v' /\ cplx v' c' /\
  makes_of_complex Conj 1 [(1, 2); (3, 4)] c' /\ keeps_meta Conj (mat_vec NComplex DTime [1; 2; 3; 4]) v'.
Proof.
  intros M. apply (C65_complex quiet Conj 0 (mat_vec NComplex DTime [1; 2; 3; 4])); [apply ready_here; [discriminate|intros _; reflexivity]|exact I|exact I|split; reflexivity].
Qed.
Example C65_matrix_complex_example : forall `{Math R}, exists m' cs', mat_inplace quiet Reverse [mat_vec NComplex DTime [1; 2; 3; 4]] = Done m' /\ complex_rows m' cs' /\
  Forall2 (makes_of_complex Reverse 1) [[(1, 2); (3, 4)]] cs'.
Proof.
  intros M. apply (C65_matrix_complex quiet Reverse 1 [mat_vec NComplex DTime [1; 2; 3; 4]]); [constructor; [split; reflexivity|constructor]|exact I|].
  intros [|i] v E; cbn in E; [|discriminate E]. injection E as <-. split; [apply ready_here; [discriminate|intros _; reflexivity]|]. split; [exact I|reflexivity].
Qed.
Example C65_conversions_b_example : exists v' b', vec_buffered (F := exact_fft) quiet Phase_b 0 (SingleBuffer []) (mat_vec NComplex DTime [3; 4]) = Done (v', b') /\
  reals v' [Ratan2 4 3].
Proof.
  destruct (C65_conversions_b (F := exact_fft) quiet Phase_b Phase 0 (SingleBuffer []) (mat_vec NComplex DTime [3; 4]) [(3, 4)] eq_refl) as (v' & b' & E & D & _);
    [apply ready_here; [discriminate|intros _; reflexivity]|exact I|exact I|split; reflexivity|].
  exists v', b'. split; [exact E|exact D].
Qed.
Lemma takes_here l n : takes (mat_vec NReal DTime l : dvec R) n.
Proof. split; [reflexivity|]. split; [split; [apply Nat.le_refl|intros K; exfalso; exact (K eq_refl)]|]. exact I. Qed.
Example C65_getters_example : exists d', vec_getter quiet Get_magnitude_squared 0 (mat_vec NComplex DTime [3; 4]) (mat_vec NReal DTime []) = Done d' /\ reals d' [25].
Proof.
  destruct (C65_getters quiet Get_magnitude_squared 0 (mat_vec NComplex DTime [3; 4]) (mat_vec NReal DTime []) [(3, 4)]) as (d' & E & D & _);
    [apply ready_here; [discriminate|intros _; reflexivity]|exact I|reflexivity|apply takes_here|split; reflexivity|].
  exists d'. split; [exact E|]. cbn [map gets converts fst snd] in D. replace (3 * 3 + 4 * 4) with 25 in D by lra. exact D.
Qed.
Example C65_getters2_example : exists d1 d2, vec_getter2 Get_real_imag (mat_vec NComplex DTime [3; 4]) (mat_vec NReal DTime []) (mat_vec NReal DTime []) = Done (d1, d2) /\
  reals d1 [3] /\ reals d2 [4].
Proof.
  destruct (C65_getters2 Get_real_imag (mat_vec NComplex DTime [3; 4]) (mat_vec NReal DTime []) (mat_vec NReal DTime []) [(3, 4)]) as (d1 & d2 & E & D1 & D2 & _);
    [split; reflexivity|apply takes_here|apply takes_here|]. exists d1, d2. split; [exact E|]. split; [exact D1|exact D2].
Qed.
Example C65_setters2_example : exists v', vec_setter2 Set_real_imag (mat_vec NComplex DTime []) (mat_vec NReal DTime [1; 2]) (mat_vec NReal DTime [3; 4]) = Done (v', Ok tt) /\
  cplx v' [(1, 3); (2, 4)].
Proof.
  destruct (C65_setters2 Set_real_imag (mat_vec NComplex DTime []) (mat_vec NReal DTime [1; 2]) (mat_vec NReal DTime [3; 4]) [1; 2] [3; 4]) as (v' & E & D & _);
    [reflexivity|reflexivity|split; reflexivity|split; reflexivity|reflexivity|apply takes_here|apply takes_here|]. exists v'. split; [exact E|exact D].
Qed.
Example C65_dot_products_example : vec_dot_op quiet Dot_product_prec 0 (mat_vec NReal DTime [1; 2]) (mat_vec NReal DTime [3; 4]) = Done (Ok 11).
Proof.
  rewrite (C65_dot_products quiet Dot_product_prec 0 (mat_vec NReal DTime [1; 2]) (mat_vec NReal DTime [3; 4]) [1; 2] [3; 4]);
    [cbn; do 2 f_equal; lra|apply ready_here; discriminate|reflexivity|split; reflexivity|split; reflexivity].
Qed.
Example C65_statistics_example : exists st, vec_stat_op quiet Statistics_prec 0 (mat_vec NReal DTime [1; 2; 6]) = Done st /\ totals_of [1; 2; 6] st.
Proof. apply (C65_statistics quiet Statistics_prec 0 (mat_vec NReal DTime [1; 2; 6]) [1; 2; 6]); [split; reflexivity|discriminate]. Qed.
Example C65_matrix_binary_example : exists m' ls', mat_binary quiet Div two_rows two_rows = Done (m', Ok tt) /\ real_rows m' ls' /\ length ls' = 2%nat.
Proof.
  destruct (C65_matrix_binary_reals quiet Div two_rows two_rows _ _ two_rows_numbers two_rows_numbers eq_refl) as (m' & ls' & E & D & L & _).
  - intros i v w Ev Ew. rewrite Ev in Ew. injection Ew as <-. split; [exact (two_rows_ready i v Ev)|]. split; [|reflexivity].
    destruct i as [|[|i]]; cbn in Ev; try discriminate Ev; injection Ev as <-; apply agree_here.
  - exists m', ls'. split; [exact E|]. split; [exact D|exact L].
Qed.
Example C65_matrix_conversions_example : exists m', mat_conversion Matrix2xN To_imag [mat_vec NComplex DTime [3; 4]; mat_vec NComplex DTime [5; 6]] = Done m' /\
  real_rows m' [[4]; [6]].
Proof.
  apply (C65_matrix_conversions Matrix2xN To_imag [mat_vec NComplex DTime [3; 4]; mat_vec NComplex DTime [5; 6]] [[(3, 4)]; [(5, 6)]]).
  - constructor; [split; reflexivity|]. constructor; [split; reflexivity|constructor].
  - exact I.
  - intros v Hv. apply elem_of_list_lookup in Hv as [[|[|i]] E]; cbn in E; try discriminate E; injection E as <-; exact I.
Qed.
Example C65_matrix_getters_example : exists d', mat_getter quiet Get_real [mat_vec NComplex DTime [3; 4]] [mat_vec NReal DTime []] = Done d' /\ real_rows d' [[3]].
Proof.
  apply (C65_matrix_getters quiet Get_real [mat_vec NComplex DTime [3; 4]] [mat_vec NReal DTime []] [[(3, 4)]]); [constructor; [split; reflexivity|constructor]|reflexivity|].
  intros [|i] v d Ev Ed; cbn in Ev, Ed; [|discriminate Ev]. injection Ev as <-. injection Ed as <-.
  split; [apply ready_here; [discriminate|intros _; reflexivity]|]. split; [exact I|]. split; [reflexivity|apply takes_here].
Qed.
Example C65_matrix_dot_products_example : mat_dot quiet Dot_product two_rows two_rows = Done (Ok [21; 115]).
Proof.
  rewrite (C65_matrix_dot_products quiet Dot_product two_rows two_rows _ _ two_rows_numbers two_rows_numbers eq_refl).
  - cbn. do 2 f_equal. f_equal; [lra|]. f_equal. lra.
  - intros i v w Ev Ew. rewrite Ev in Ew. injection Ew as <-. split; [exact (two_rows_ready i v Ev)|reflexivity].
Qed.
Example C65_foreign_binary_example : forall `{Math R}, exists y l',
  foreign_call (F := exact_fft) (H4 := fun _ => false) quiet (fun _ => true) (F_binary Sub_smaller (IVec (mat_vec NReal DTime [1]) (SingleBuffer [])))
    (IVec (mat_vec NReal DTime [4; 9]) (SingleBuffer [])) = Done (y, 0%Z) /\ reals (i_vec y) l' /\ combined_cyclic Rminus [4; 9] [1] l'.
Proof.
  intros M. destruct (C65_foreign_binary (F := exact_fft) (H0 := fun _ => false) quiet (fun _ => true) Sub_smaller (IVec (mat_vec NReal DTime [4; 9]) (SingleBuffer []))
    (IVec (mat_vec NReal DTime [1]) (SingleBuffer []))) as [Hx _]; [apply ready_here; discriminate|apply agree_here|split; [discriminate|reflexivity]|reflexivity|].
  destruct (Hx [4; 9] [1]) as (y & l' & E & D & _ & P); [split; reflexivity|split; reflexivity|]. exists y, l'. split; [exact E|]. split; [exact D|exact P].
Qed.
