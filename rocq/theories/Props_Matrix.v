(** C39: the methods of the matrices are the methods of the vectors, row by row. *)
From Verif Require Import Proof_MatMore NumsFlt NumsR NumsTrig Nums.
From Verif Require Import Model_MatOps.
Local Open Scope nat_scope.

Definition mat_vec {A} `{Num A} (ns : nspace) (d : dmarker) (l : list A) : dvec A := DVec (Storage KVec (length l) l) n1 d ns (length l).
Definition quiet : env := Env f64x2 (fun _ => 48) (with_thresholds 1 2 3 2 3) (fun _ _ => []).
Local Instance Zmath : Math Z := {| rmath := fun _ x => x; cmath := fun _ x => x; rpowf := Z.pow; cpowf := fun x _ => x; rlog := fun x _ => x;
  clog := fun x _ => x; cexpf := fun x _ => x |}.

(** ** Methods which change the rows *)
(** Except for [diff_with_start] and [cum_sum], a method does to the matrix what the method of the same name does to each row. *)
Theorem C39_in_place : forall {A} `{Num A} `{Flt A} `{Rem A} `{Trig A} `{Math A} e op (m m' : matrix A), op <> Diff_with_start -> op <> Cum_sum ->
  mat_inplace e op m = Done m' <-> each_row (vec_inplace e op) m m'.
Proof. exact @mat_inplace_rows. Qed.
Print Assumptions C39_in_place.
(** These two compute [diff] instead. *)
Theorem C39_sums_are_diff : forall {A} `{Num A} `{Flt A} `{Rem A} `{Trig A} `{Math A} e op (m m' : matrix A), op = Diff_with_start \/ op = Cum_sum ->
  mat_inplace e op m = Done m' <-> each_row (fun _ => diff) m m'.
Proof. exact @mat_inplace_diff. Qed.
Print Assumptions C39_sums_are_diff.
Example C39_in_place_example : let m := [mat_vec NReal DTime [1; 2; 3]; mat_vec NReal DTime [4; 5; 6]]%Z in
  each_row (vec_inplace quiet (Scale 10%Z)) m [mat_vec NReal DTime [10; 20; 30]; mat_vec NReal DTime [40; 50; 60]]%Z.
Proof. apply C39_in_place; try done. Qed.
(** The row-wise sum of [1; 2; 3] is [1; 3; 6]; the matrix has two elements per row afterwards. *)
Theorem C39_cum_sum_refuted : exists m m' : matrix Z, mat_inplace quiet Cum_sum m = Done m' /\ ~ each_row (vec_inplace quiet Cum_sum) m m' /\
  each_row (vec_inplace quiet Cum_sum) m [mat_vec NReal DTime [1; 3; 6]%Z] /\ exists v, m' = [v] /\ reals v [1; 1]%Z.
Proof.
  exists [mat_vec NReal DTime [1; 2; 3]%Z]. eexists. split; [by vm_compute|]. split; [|split].
  - intros [_ E]. destruct (E 0 _ eq_refl) as (w & [= <-] & Ew). by vm_compute in Ew.
  - split; [done|]. intros [|[|i]] v; [|done..]. intros [= <-]. eexists. split; [done|]. by vm_compute.
  - eexists. split; [reflexivity|]. by split.
Qed.
Print Assumptions C39_cum_sum_refuted.
Theorem C39_diff_with_start_refuted : exists m m' : matrix Z, mat_inplace quiet Diff_with_start m = Done m' /\
  ~ each_row (vec_inplace quiet Diff_with_start) m m' /\ each_row (vec_inplace quiet Diff_with_start) m [mat_vec NReal DTime [1; 1; 3]%Z] /\
  exists v, m' = [v] /\ reals v [1; 3]%Z.
Proof.
  exists [mat_vec NReal DTime [1; 2; 5]%Z]. eexists. split; [by vm_compute|]. split; [|split].
  - intros [_ E]. destruct (E 0 _ eq_refl) as (w & [= <-] & Ew). by vm_compute in Ew.
  - split; [done|]. intros [|[|i]] v; [|done..]. intros [= <-]. eexists. split; [done|]. by vm_compute.
  - eexists. split; [reflexivity|]. by split.
Qed.
Print Assumptions C39_diff_with_start_refuted.

(** With another matrix: the rows are paired; the first pair which fails ends the operation. *)
Theorem C39_matrix_argument : forall {A} `{Num A} e op (m o m' : matrix A) res,
  mat_binary e op m o = Done (m', res) <-> tried_rows (paired (vec_binary e op) o) m m' res.
Proof. intros. apply rows_zip_try_spec. Qed.
Print Assumptions C39_matrix_argument.
Theorem C39_vector_argument : forall {A} `{Num A} e op (m m' : matrix A) o res,
  mat_binary_vec e op m o = Done (m', res) <-> tried_rows (fun i v => vec_binary e op i v o) m m' res.
Proof. intros. apply rows_try_spec. Qed.
Print Assumptions C39_vector_argument.
Theorem C39_resize : forall {A} `{Num A} (m m' : matrix A) l res,
  mat_resize m l = Done (m', res) <-> tried_rows (fun _ v => Done (Model_Vec.resize n0 v l)) m m' res.
Proof. intros. apply rows_try_spec. Qed.
Print Assumptions C39_resize.
Example C39_matrix_argument_example : let m := [mat_vec NReal DTime [1; 2; 3]; mat_vec NReal DTime [4; 5; 6]]%Z in
  tried_rows (paired (vec_binary quiet Sub) m) m [mat_vec NReal DTime [0; 0; 0]; mat_vec NReal DTime [0; 0; 0]]%Z (Ok tt).
Proof. apply C39_matrix_argument. by vm_compute. Qed.

(** If the rows are alike, a failing operation leaves the matrix unchanged. *)
Theorem C39_unchanged_vector : forall {A} `{Num A} e op (m m' : matrix A) o err,
  uniform m -> mat_binary_vec e op m o = Done (m', Err err) -> m' = m.
Proof. exact @uniform_vec_unchanged. Qed.
Print Assumptions C39_unchanged_vector.
Theorem C39_unchanged_matrix : forall {A} `{Num A} e op (m m' o : matrix A) err,
  uniform m -> uniform o -> mat_binary e op m o = Done (m', Err err) -> m' = m.
Proof. exact @uniform_mat_unchanged. Qed.
Print Assumptions C39_unchanged_matrix.
Example C39_unchanged_example : let m := [mat_vec NReal DTime [1; 2; 3]; mat_vec NReal DTime [4; 5; 6]]%Z in
  uniform m /\ mat_binary_vec quiet Add m (mat_vec NReal DTime [1; 2]%Z) = Done (m, Err InputMustHaveTheSameSize).
Proof.
  intros m. split; [|by vm_compute]. intros v w Hv Hw. unfold m in *.
  repeat (apply elem_of_cons in Hv as [-> | Hv]; [repeat (apply elem_of_cons in Hw as [-> | Hw]; [done|]); by apply elem_of_nil in Hw|]). by apply elem_of_nil in Hv.
Qed.
(** Otherwise the rows before the failing one are changed. *)
Theorem C39_unchanged_refuted : exists (m o m' : matrix Z) err, mat_binary quiet Add m o = Done (m', Err err) /\ m' <> m /\
  exists v w, m !! 0 = Some v /\ m' !! 0 = Some w /\ reals v [1; 2; 3]%Z /\ reals w [11; 22; 33]%Z.
Proof.
  exists [mat_vec NReal DTime [1; 2; 3]; mat_vec NReal DTime [4; 5; 6]]%Z, [mat_vec NReal DTime [10; 20; 30]; mat_vec NReal DTime [4; 5]]%Z.
  eexists _, _. split; [by vm_compute|]. split; [done|]. eexists _, _. split; [reflexivity|]. split; [reflexivity|]. by split.
Qed.
Print Assumptions C39_unchanged_refuted.
(** Rows without counterpart are left alone, and the operation succeeds. *)
Theorem C39_missing_rows_refuted : exists m o m' : matrix Z, mat_binary quiet Add m o = Done (m', Ok tt) /\ length o < length m /\
  exists v, m !! 1 = Some v /\ m' !! 1 = Some v.
Proof.
  exists [mat_vec NReal DTime [1; 2; 3]; mat_vec NReal DTime [4; 5; 6]]%Z, [mat_vec NReal DTime [10; 20; 30]]%Z. eexists.
  split; [by vm_compute|]. split; [cbn; lia|]. eexists. by split.
Qed.
Print Assumptions C39_missing_rows_refuted.

(** ** Conversions *)
Theorem C39_conversions : forall {A} `{Num A} `{Flt A} k op (m m' : matrix A), mat_conversion k op m = Done m' <-> each_row (fun _ => vec_conversion op) m m'.
Proof. exact @mat_conversion_rows. Qed.
Print Assumptions C39_conversions.
Theorem C39_construction : forall {A} k (f : storage A -> dvec A) m, mat_construct k f m = Done (map f m).
Proof. exact @mat_construct_rows. Qed.
Print Assumptions C39_construction.
(** The rows of a [MatrixMxN] are converted from the last one to the first one, those of the other matrices from the first one to the last one; all of them use
    the same buffer. *)
Theorem C39_buffered : forall {A} `{Num A} `{Flt A} `{F : Fft A} e k op b (m m' : matrix A) b',
  mat_buffered e k op b m = Done (m', b') <-> through (visiting k (length m)) (vec_buffered e op) b m b' m'.
Proof. intros. apply transform_spec. Qed.
Print Assumptions C39_buffered.
(** All rows are converted, also if some of them fail; the reported error is that of the last row which failed in this order. *)
Theorem C39_fallible : forall {A} `{Num A} `{Rem A} `{F : Fft A} e k op b (m m' : matrix A) b' res,
  mat_fallible e k op b m = Done (m', b', res) <-> through_all (visiting k (length m)) (vec_fallible e op) b m b' m' res.
Proof. intros. apply transform_res_spec. Qed.
Print Assumptions C39_fallible.
Theorem C39_buffered_in_place : forall {A} `{Num A} `{Flt A} `{Rem A} `{Trig A} `{F : Fft A} `{RA : Rounding A} e fits op b (m m' : matrix A) b',
  mat_inplace_b e fits op b m = Done (m', b') <-> through first_to_last (vec_inplace_b e fits op) b m b' m'.
Proof. intros. apply rows_buf_spec. Qed.
Print Assumptions C39_buffered_in_place.
(** [interpolatei] and [interpolate]: one row after the other until one of them fails *)
Theorem C39_resampling : forall {A} `{Num A} `{Flt A} `{Rem A} `{Trig A} `{F : Fft A} e op b (m m' : matrix A) b' res,
  mat_resample e op b m = Done (m', b', res) <-> tried_through (vec_resample e op) b m b' m' res.
Proof. intros. apply rows_buf_try_spec. Qed.
Print Assumptions C39_resampling.
Theorem C39_convolve_vector : forall {A} `{Num A} `{F : Fft A} e b (m m' : matrix A) imp b' res,
  mat_convolve_vector e b m imp = Done (m', b', res) <->
  tried_through (fun i b v => convolve_signal (e_reg e) (e_addr e i) (e_set e) (e_sched e i 0) b v imp) b m b' m' res.
Proof. intros. apply rows_buf_try_spec. Qed.
Print Assumptions C39_convolve_vector.
Theorem C39_correlate : forall {A} `{Num A} `{F : Fft A} e b (m o m' : matrix A) b' res,
  mat_correlate e b m o = Done (m', b', res) <->
  tried_through (paired_through (fun i b v o => correlate (e_reg e) (e_addr e i) (e_set e) (e_sched e i 0) (e_sched e i 1) b v o) o) b m b' m' res.
Proof. intros. apply rows_zip_buf_try_spec. Qed.
Print Assumptions C39_correlate.
(** For example: the transform of a matrix and its inverse restore every row. *)
Theorem C39_fft_ifft : forall `{F : Fft R}, computes_dft -> forall k e e' b (m : matrix R), reg_ok (e_reg e') ->
  (forall i v, m !! i = Some v -> exists c, cplx v c /\ length c <> 1 /\ vdomain v = Time /\ typed v /\
    spare b (2 * fft_inplace_scratch_len (length c)) /\ elem_aligned (e_reg e') (e_addr e' i) /\ simd_fits (e_reg e') (e_addr e' i) (len v)) ->
  exists m1 b1 m2 b2, mat_buffered e k FFT b m = Done (m1, b1) /\ mat_buffered e' k IFFT b1 m1 = Done (m2, b2) /\ length m2 = length m /\
    forall i v c, m !! i = Some v -> cplx v c -> exists v2, m2 !! i = Some v2 /\ cplx v2 c /\ same_rest v v2.
Proof. exact @mat_fft_ifft. Qed.
Print Assumptions C39_fft_ifft.

(** ** Getters and setters *)
Theorem C39_getters : forall {A} `{Num A} `{Flt A} e op (m dst dst' : matrix A), op = Get_real \/ op = Get_imag ->
  mat_getter e op m dst = Done dst' <-> each_row (fun i o => match m !! i with Some v => vec_getter e op i v o | None => Done o end) dst dst'.
Proof. exact @mat_getter_rows. Qed.
Print Assumptions C39_getters.
(** The magnitude, the squared magnitude and the phase of a matrix are its imaginary parts. *)
Theorem C39_getters_are_imag : forall {A} `{Num A} `{Flt A} e op (m dst : matrix A), op <> Get_real ->
  mat_getter e op m dst = mat_getter e Get_imag m dst.
Proof. exact @mat_getter_imag. Qed.
Print Assumptions C39_getters_are_imag.
Theorem C39_getters_refuted : exists m dst dst' : matrix Z, mat_getter quiet Get_magnitude_squared m dst = Done dst' /\
  exists v w, m = [v] /\ dst' = [w] /\ cplx v [(3, 4)]%Z /\ reals w [4]%Z.
Proof.
  exists [mat_vec NComplex DTime [3; 4]%Z], [mat_vec NReal DTime [0]%Z]. eexists. split; [by vm_compute|].
  eexists _, _. split; [reflexivity|]. split; [reflexivity|]. by split.
Qed.
Print Assumptions C39_getters_refuted.
(** Pairs of destinations; what has no counterpart stays as it is. *)
Theorem C39_getters2 : forall {A} `{Num A} `{Flt A} op (m d1 d2 d1' d2' : matrix A), mat_getter2 op m d1 d2 = Done (d1', d2') <->
  length d1' = length d1 /\ length d2' = length d2 /\ forall i,
    match m !! i, d1 !! i, d2 !! i with
    | Some v, Some x, Some y => exists x' y', d1' !! i = Some x' /\ d2' !! i = Some y' /\ vec_getter2 op v x y = Done (x', y')
    | _, _, _ => d1' !! i = d1 !! i /\ d2' !! i = d2 !! i
    end.
Proof. intros. apply rows_zip_two_from_spec. Qed.
Print Assumptions C39_getters2.
Theorem C39_setters2 : forall {A} `{Num A} `{Flt A} op (m x y m' : matrix A) res, mat_setter2 op m x y = Done (m', res) <->
  tried_rows (paired (fun _ v xy => vec_setter2 op v (fst xy) (snd xy)) (zip x y)) m m' res.
Proof. intros. apply rows_zip_try_spec. Qed.
Print Assumptions C39_setters2.

(** ** One value per row *)
Theorem C39_sums : forall {A} `{Num A} e k op (m : matrix A) l, rows_ok k m -> mat_sum e k op m = Done l <-> each_row (vec_sum_op e op) m l.
Proof. exact @mat_sum_rows. Qed.
Print Assumptions C39_sums.
Theorem C39_statistics : forall {A} `{Num A} `{Flt A} e k op (m : matrix A) l, rows_ok k m -> mat_stat e k op m = Done l <-> each_row (vec_stat_op e op) m l.
Proof. exact @mat_stat_rows. Qed.
Print Assumptions C39_statistics.
Theorem C39_statistics_split : forall {A} `{Num A} `{Flt A} e k op (m : matrix A) n res, rows_ok k m ->
  mat_split e k op m n = Done res <-> collected (fun i v => vec_split_op e op i v n) m res.
Proof. intros. by apply collect_rows. Qed.
Print Assumptions C39_statistics_split.
Theorem C39_dot_matrix : forall {A} `{Num A} e op (m o : matrix A) res,
  mat_dot e op m o = Done res <-> collected (fun i vo => vec_dot_op e op i (fst vo) (snd vo)) (zip m o) res.
Proof. intros. apply rows_zip_collect_spec. Qed.
Print Assumptions C39_dot_matrix.
Theorem C39_dot_vector : forall {A} `{Num A} e k op (m : matrix A) o res, rows_ok k m ->
  mat_dot_vec e k op m o = Done res <-> collected (fun i v => vec_dot_op e op i v o) m res.
Proof. intros. by apply collect_rows. Qed.
Print Assumptions C39_dot_vector.
Theorem C39_map_aggregate : forall {A R} e k (f : A -> nat -> R) g (m : matrix A) res, rows_ok k m ->
  mat_map_aggregate e k f g m = Done res <-> collected (fun i v => map_aggregate f g (e_set e) (e_sched e i 0) v) m res.
Proof. intros. by apply collect_rows. Qed.
Print Assumptions C39_map_aggregate.
Example C39_sums_example : let m := [mat_vec NReal DTime [1; 2; 3]; mat_vec NReal DTime [4; 5; 6]]%Z in
  rows_ok Matrix2xN m /\ mat_sum quiet Matrix2xN Sum m = Done [6; 15]%Z.
Proof. split; [done|]. by vm_compute. Qed.
(** [sum] of a [Matrix3xN] does not exist; the method with its type belongs to [Matrix2xN] and always panics. *)
Theorem C39_sum_refuted : forall {A} `{Num A} e op res (m : matrix A), In (Matrix2xN, res) (sum_impls op) -> res <> Matrix2xN -> rows_ok Matrix2xN m ->
  mat_sum e res op m = Panicked.
Proof.
  intros A HN e op res m Hi Hn Hm. apply mat_sum_panics; [|done].
  destruct op; cbn in Hi; repeat (destruct Hi as [E|Hi]; [first [discriminate E | injection E as <-; tauto]|]); done.
Qed.
Print Assumptions C39_sum_refuted.
Theorem C39_sum_missing : forall op, op = Sum \/ op = Sum_sq -> forall k res, In (k, res) (sum_impls op) -> k <> Matrix3xN /\ k <> Matrix4xN.
Proof. intros op [-> | ->] k res Hi; cbn in Hi; repeat (destruct Hi as [E|Hi]; [injection E as <- <-; by split|]); done. Qed.
Print Assumptions C39_sum_missing.

(** ** Cases which meet the hypotheses above *)
Lemma quiet_aligned : reg_ok f64x2 /\ elem_aligned f64x2 48.
Proof. unfold reg_ok, elem_aligned. vm_compute. split_and!; try lia; done. Qed.
Example C39_fft_ifft_example : let m := [mat_vec NComplex DTime [1; 2; 3; 4]; mat_vec NComplex DTime [5; 6; 7; 8]]%R in
  exists m1 b1 m2 b2, mat_buffered (F := exact_fft) quiet Matrix2xN FFT (SingleBuffer []) m = Done (m1, b1) /\
    mat_buffered (F := exact_fft) quiet Matrix2xN IFFT b1 m1 = Done (m2, b2) /\ exists v2, m2 !! 1 = Some v2 /\ cplx v2 [(5, 6); (7, 8)]%R.
Proof.
  intros m. destruct quiet_aligned as [Hr Ha].
  assert (He : @computes_dft exact_fft). { split_and!; try done. intros c. apply map_length. }
  destruct (C39_fft_ifft (F := exact_fft) He Matrix2xN quiet quiet (SingleBuffer []) m Hr) as (m1 & b1 & m2 & b2 & E1 & E2 & _ & HE).
  { intros [|[|i]] v Hv; [| |done]; injection Hv as <-.
    - exists [(1, 2); (3, 4)]%R. split; [by split|]. split; [done|]. split; [done|]. split; [done|]. split; [done|]. split; [exact Ha|]. by left.
    - exists [(5, 6); (7, 8)]%R. split; [by split|]. split; [done|]. split; [done|]. split; [done|]. split; [done|]. split; [exact Ha|]. by left. }
  exists m1, b1, m2, b2. split; [exact E1|]. split; [exact E2|].
  destruct (HE 1 _ [(5, 6); (7, 8)]%R eq_refl) as (v2 & F2 & C2 & _); [by split|]. by exists v2.
Qed.
(** Both rows fail; the error of a [MatrixMxN] is that of the first row, the error of a [Matrix2xN] that of the second one. *)
Local Instance Zfft_ex : Fft Z := {| fft_forward := fun c => c; fft_inverse := fun c => c; fft_rest := fun c => c; fft_inplace_scratch_len := fun _ => 0;
  fft_outofplace_scratch_len := fun _ => 0 |}.
Example C39_fallible_example : let m := [mat_vec NReal (DDyn Frequency) [1; 2]; mat_vec NReal DTime [1; 2]]%Z in
  (exists m' b', mat_fallible quiet MatrixMxN Plain_sfft (SingleBuffer []) m = Done (m', b', Err InputMustBeInTimeDomain)) /\
  (exists m' b', mat_fallible quiet Matrix2xN Plain_sfft (SingleBuffer []) m = Done (m', b', Err InputMustHaveAnOddLength)).
Proof. intros m. split; eexists _, _; vm_compute; reflexivity. Qed.
Example C39_dot_example : let m := [mat_vec NReal DTime [1; 2; 3]; mat_vec NReal DTime [4; 5; 6]]%Z in
  collected (fun i vo => vec_dot_op quiet Dot_product i (fst vo) (snd vo)) (zip m m) (Ok [14; 77]%Z).
Proof. apply C39_dot_matrix. by vm_compute. Qed.
Example C39_getters_example : let m := [mat_vec NComplex DTime [1; 2; 3; 4]; mat_vec NComplex DTime [5; 6]]%Z in
  exists dst', mat_getter quiet Get_real m [mat_vec NReal DTime [0; 0]; mat_vec NReal DTime [0; 0]]%Z = Done dst' /\
    exists x y, dst' = [x; y] /\ reals x [1; 3]%Z /\ reals y [5]%Z.
Proof. eexists. split; [vm_compute; reflexivity|]. eexists _, _. split; [reflexivity|]. by split. Qed.
