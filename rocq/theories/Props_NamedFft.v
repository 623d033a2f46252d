(** C65: the transforms of matrices and of the foreign functions compute the transforms of Spec_Named.v. *)
From Verif Require Import Props_Fft Props_Matrix Props_Interop Props_Named Proof_NamedMore.
From Verif Require Import Spec_NamedFft.
From Verif Require Import Model_MatOps.
From stdpp Require Import tactics.
Local Open Scope R_scope.
Local Notation C := (R * R)%type.

(** Every row is transformed, with a buffer which all rows share *)
Theorem C65_matrix_transforms : forall `{F : Fft R}, computes_dft -> forall k e op b (m : matrix R) cs, complex_rows m cs ->
  (forall i v, m !! i = Some v -> row_ready e i v /\ typed v /\ aligned_all (e_reg e) (e_addr e i) /\ transformable e op b v) ->
  exists m' b' cs', mat_buffered e k op b m = Done (m', b') /\ complex_rows m' cs' /\ Forall2 (transforms op) cs cs'.
Proof. exact @matrix_transforms. Qed.
Print Assumptions C65_matrix_transforms.
(** The foreign functions transform their vector and report success, or a vector without points *)
Theorem C65_foreign_transforms : forall `{F : Fft R}, computes_dft -> forall `{Math R} `{RA : Rounding R} `{IsNan R} e fits f op (x : ivec R) c,
  foreign_transform f = Some op -> cplx (i_vec x) c ->
  row_ready e 0 (i_vec x) -> typed (i_vec x) -> aligned_all (e_reg e) (e_addr e 0) -> transformable e op (i_buf x) (i_vec x) ->
  exists y code c', foreign_call e fits f x = Done (y, code) /\ cplx (i_vec y) c' /\ transforms op c c' /\ still_spare (i_buf x) (i_buf y) /\
    (code = 0%Z \/ (len (i_vec y) = 0%nat /\ nisnan (delta (i_vec y)) = true)).
Proof. exact @foreign_transforms. Qed.
Print Assumptions C65_foreign_transforms.

Lemma aligned_here : aligned_all (e_reg quiet) (e_addr quiet 0).
Proof. split; [split; [apply Nat.lt_0_succ|split; [apply Nat.lt_0_succ|reflexivity]]|]. split; [reflexivity|]. split; reflexivity. Qed.
(** The rows [1; i] and [2; 3] *)
Definition two_complex_rows : matrix R := [mat_vec NComplex DFreq [1; 0; 0; 1]; mat_vec NComplex DFreq [2; 0; 3; 0]].
Example C65_matrix_transforms_example : exists m' b' cs', mat_buffered (F := exact_fft) quiet MatrixMxN IFFT NoBuffer two_complex_rows = Done (m', b') /\
  complex_rows m' cs' /\ Forall2 (transforms IFFT) [[(1, 0); (0, 1)]; [(2, 0); (3, 0)]] cs'.
Proof.
  apply (C65_matrix_transforms (F := exact_fft) exact_fft_computes).
  - constructor; [split; reflexivity|]. constructor; [split; reflexivity|constructor].
  - intros [|[|i]] v Ev; cbn in Ev; try discriminate Ev; injection Ev as <-;
      (split; [apply ready_here; [discriminate|intros _; reflexivity]|]); (split; [exact I|]); (split; [exact aligned_here|]); (split; [reflexivity|]); (split; [exact I|discriminate]).
Qed.
(** [windowed_fft64] with window number 7 of the points 1 and i *)
Example C65_foreign_transforms_example : forall `{Math R}, exists y c',
  foreign_call (F := exact_fft) (H4 := fun _ => false) quiet (fun _ => true) (F_windowed_fft 7) (IVec (mat_vec NComplex DTime [1; 0; 0; 1]) (SingleBuffer [])) = Done (y, 0%Z) /\
  cplx (i_vec y) c' /\ transforms (Windowed_fft rectangular_window) [(1, 0); (0, 1)] c'.
Proof.
  intros M.
  destruct (C65_foreign_transforms (F := exact_fft) exact_fft_computes (H0 := fun _ => false) quiet (fun _ => true) (F_windowed_fft 7) (Windowed_fft rectangular_window)
    (IVec (mat_vec NComplex DTime [1; 0; 0; 1]) (SingleBuffer [])) [(1, 0); (0, 1)]) as (y & code & c' & E & D & P & _ & [->|[_ Hn]]).
  - reflexivity.
  - split; reflexivity.
  - apply ready_here; [discriminate|intros _; reflexivity].
  - exact I.
  - exact aligned_here.
  - split; [reflexivity|]. split; [exact I|]. intros _. split; [intros i _; reflexivity|]. left. split; [reflexivity|apply Nat.le_refl].
  - exists y, c'. split; [exact E|]. split; [exact D|exact P].
  - discriminate Hn.
Qed.

(** The methods which make numbers of complex vectors and trade buffers *)
Theorem C65_matrix_conversions_b : forall `{F : Fft R} kd e op k b (m : matrix R) cs, complex_rows m cs -> unbuffered op = Some k ->
  (forall i v, m !! i = Some v -> row_ready e i v /\ typed v /\ lends b v (points v)) ->
  exists m' b', mat_buffered e kd op b m = Done (m', b') /\ real_rows m' (map (map (converts k)) cs).
Proof. exact @matrix_conversions_b. Qed.
Print Assumptions C65_matrix_conversions_b.
Theorem C65_foreign_conversions_b : forall `{F : Fft R} `{Math R} `{RA : Rounding R} `{IsNan R} e fits op k (x : ivec R) c,
  unbuffered op = Some k -> cplx (i_vec x) c -> row_ready e 0 (i_vec x) -> typed (i_vec x) -> lends (i_buf x) (i_vec x) (length c) ->
  exists y code, foreign_call e fits (F_buffered op) x = Done (y, code) /\ reals (i_vec y) (map (converts k) c) /\ still_spare (i_buf x) (i_buf y) /\
    (code = 0%Z \/ (len (i_vec y) = 0%nat /\ nisnan (delta (i_vec y)) = true)).
Proof. exact @foreign_conversions_b. Qed.
Print Assumptions C65_foreign_conversions_b.
Example C65_matrix_conversions_b_example : exists m' b', mat_buffered (F := exact_fft) quiet Matrix2xN Magnitude_squared_b (SingleBuffer []) two_complex_rows = Done (m', b') /\
  real_rows m' [[1; 1]; [4; 9]].
Proof.
  destruct (C65_matrix_conversions_b (F := exact_fft) Matrix2xN quiet Magnitude_squared_b Magnitude_squared (SingleBuffer []) two_complex_rows [[(1, 0); (0, 1)]; [(2, 0); (3, 0)]])
    as (m' & b' & E & D).
  - constructor; [split; reflexivity|]. constructor; [split; reflexivity|constructor].
  - reflexivity.
  - intros [|[|i]] v Ev; cbn in Ev; try discriminate Ev; injection Ev as <-; (split; [apply ready_here; [discriminate|intros _; reflexivity]|]); (split; exact I).
  - exists m', b'. split; [exact E|]. cbn [map converts fst snd] in D.
    replace (1 * 1 + 0 * 0) with 1 in D by lra. replace (0 * 0 + 1 * 1) with 1 in D by lra. replace (2 * 2 + 0 * 0) with 4 in D by lra.
    replace (3 * 3 + 0 * 0) with 9 in D by lra. exact D.
Qed.
Example C65_foreign_conversions_b_example : forall `{Math R}, exists y,
  foreign_call (F := exact_fft) (H4 := fun _ => false) quiet (fun _ => true) (F_buffered To_imag_b) (IVec (mat_vec NComplex DTime [1; 2; 3; 4]) (SingleBuffer [])) = Done (y, 0%Z) /\
  reals (i_vec y) [2; 4].
Proof.
  intros M.
  destruct (C65_foreign_conversions_b (F := exact_fft) (H0 := fun _ => false) quiet (fun _ => true) To_imag_b To_imag
    (IVec (mat_vec NComplex DTime [1; 2; 3; 4]) (SingleBuffer [])) [(1, 2); (3, 4)]) as (y & code & E & D & _ & [->|[_ Hn]]).
  - reflexivity.
  - split; reflexivity.
  - apply ready_here; [discriminate|intros _; reflexivity].
  - exact I.
  - exact I.
  - exists y. split; [exact E|exact D].
  - discriminate Hn.
Qed.
