(** The table of Spec_Named.v for the rows of matrices and for the foreign functions *)
From Verif Require Import Props_Matrix Props_Interop Proof_MatMore.
From Verif Require Import Proof_Named Proof_NamedFft.
From Verif Require Import Spec_Named Model_Interop.
From Verif Require Import Model_MatOps.
From stdpp Require Import tactics.
Local Open Scope R_scope.
Local Notation C := (R * R)%type.

Lemma build_rows {V W X Y} (f : nat -> V -> run W) (holds : V -> X -> Prop) (holds' : W -> Y -> Prop) (rel : X -> Y -> Prop) m xs :
  Forall2 holds m xs -> (forall i v x, m !! i = Some v -> holds v x -> exists w y, f i v = Done w /\ holds' w y /\ rel x y) ->
  exists m' ys, each_row f m m' /\ Forall2 holds' m' ys /\ Forall2 rel xs ys.
Proof.
  intros Hm. revert f. induction Hm as [|v x m xs Hv Hm IH]; intros f Hf.
  - exists [], []. split; [split; [reflexivity|intros i v E; discriminate E]|]. split; constructor.
  - destruct (Hf 0%nat v x eq_refl Hv) as (w & y & E & Hw & Hr).
    destruct (IH (fun i => f (S i))) as (m' & ys & [L R] & Hy & Hrel).
    { intros i v' x' E' H'. exact (Hf (S i) v' x' E' H'). }
    exists (w :: m'), (y :: ys). split; [|split; constructor; assumption]. split; [cbn; by rewrite L|].
    intros [|i] v' E'; cbn in E'; [injection E' as <-; exists w; split; [reflexivity|exact E] | exact (R i v' E')].
Qed.
Lemma build_tried {V X Y} (f : nat -> V -> run (V * result unit)) (holds : V -> X -> Prop) (holds' : V -> Y -> Prop) (rel : nat -> X -> Y -> Prop) m xs :
  Forall2 holds m xs -> (forall i v x, m !! i = Some v -> xs !! i = Some x -> holds v x -> exists w y, f i v = Done (w, Ok tt) /\ holds' w y /\ rel i x y) ->
  exists m' ys, tried_rows f m m' (Ok tt) /\ Forall2 holds' m' ys /\ length ys = length xs /\ forall i x y, xs !! i = Some x -> ys !! i = Some y -> rel i x y.
Proof.
  intros Hm Hf.
  assert (Hall : exists m' ys, length m' = length m /\ length ys = length xs /\ Forall2 holds' m' ys /\
    forall i v x, m !! i = Some v -> xs !! i = Some x -> exists w y, m' !! i = Some w /\ ys !! i = Some y /\ f i v = Done (w, Ok tt) /\ rel i x y).
  { revert f rel Hf. induction Hm as [|v x m xs Hv Hm IH]; intros f rel Hf.
    - exists [], []. split; [reflexivity|]. split; [reflexivity|]. split; [constructor|]. intros i v x E; discriminate E.
    - destruct (Hf 0%nat v x eq_refl eq_refl Hv) as (w & y & E & Hw & Hr).
      destruct (IH (fun i => f (S i)) (fun i => rel (S i))) as (m' & ys & L1 & L2 & Hy & R).
      { intros i v' x' E1 E2 H'. exact (Hf (S i) v' x' E1 E2 H'). }
      exists (w :: m'), (y :: ys). split; [cbn; by rewrite L1|]. split; [cbn; by rewrite L2|]. split; [constructor; assumption|].
      intros [|i] v' x' E1 E2; cbn in E1, E2.
      + injection E1 as <-. injection E2 as <-. exists w, y. split; [reflexivity|]. split; [reflexivity|]. split; assumption.
      + exact (R i v' x' E1 E2). }
  destruct Hall as (m' & ys & L1 & L2 & Hy & R). pose proof (Forall2_length _ _ _ Hm) as Lmx. exists m', ys. split; [|split; [exact Hy|split; [exact L2|]]].
  - split; [exact L1|]. exists (length m). split; [apply Nat.le_refl|]. split; [|reflexivity].
    intros i v Hi E. destruct (lookup_lt_is_Some_2 xs i) as [x Ex]; [rewrite <- Lmx; exact Hi|].
    destruct (R i v x E Ex) as (w & y & E1 & _ & E3 & _). exists w. split; [exact E1|exact E3].
  - intros i x y Ex Ey. destruct (lookup_lt_is_Some_2 m i) as [v Ev]; [rewrite Lmx; exact (lookup_lt_Some _ _ _ Ex)|].
    destruct (R i v x Ev Ex) as (w & y' & _ & E2 & _ & E4). rewrite Ey in E2. injection E2 as ->. exact E4.
Qed.

Section rows.
Context `{Math R}.

Lemma mat_uses e op (m m' : matrix R) : mat_inplace e op m = Done m' <-> each_row (vec_inplace e (used_by_matrix op)) m m'.
Proof.
  destruct op; cbn [used_by_matrix];
    match goal with
    | |- mat_inplace _ Diff_with_start _ = _ <-> _ => exact (C39_sums_are_diff e Diff_with_start m m' (or_introl eq_refl))
    | |- mat_inplace _ Cum_sum _ = _ <-> _ => exact (C39_sums_are_diff e Cum_sum m m' (or_intror eq_refl))
    | _ => apply C39_in_place; discriminate
    end.
Qed.
Theorem matrix_reals e op (m : matrix R) ls : real_rows m ls -> for_reals op ->
  (forall i v, m !! i = Some v -> row_ready e i v /\ callable e op v) ->
  exists m' ls', mat_inplace e op m = Done m' /\ real_rows m' ls' /\ Forall2 (makes_of_reals (used_by_matrix op)) ls ls'.
Proof.
  intros Hm Hf Hr.
  destruct (build_rows (vec_inplace e (used_by_matrix op)) reals reals (makes_of_reals (used_by_matrix op)) m ls Hm) as (m' & ls' & E & D & P).
  - intros i v l Ev Hv. destruct (Hr i v Ev) as [H1 H2]. destruct (inplace_reals e (used_by_matrix op) i v l) as (v' & l' & E & D & P & _); try assumption.
    + by destruct op. + by destruct op. + exists v', l'. split; [exact E|]. split; assumption.
  - exists m', ls'. split; [by apply mat_uses|]. split; assumption.
Qed.
Theorem matrix_complex e op d (m : matrix R) cs : complex_rows m cs -> for_complex op ->
  (forall i v, m !! i = Some v -> row_ready e i v /\ callable e op v /\ delta v = d) ->
  exists m' cs', mat_inplace e op m = Done m' /\ complex_rows m' cs' /\ Forall2 (makes_of_complex (used_by_matrix op) d) cs cs'.
Proof.
  intros Hm Hf Hr.
  destruct (build_rows (vec_inplace e (used_by_matrix op)) cplx cplx (makes_of_complex (used_by_matrix op) d) m cs Hm) as (m' & ls' & E & D & P).
  - intros i v l Ev Hv. destruct (Hr i v Ev) as (H1 & H2 & H3). destruct (inplace_complex e (used_by_matrix op) i v l) as (v' & l' & E & D & P & _); try assumption.
    + by destruct op. + by destruct op. + rewrite H3 in P. exists v', l'. split; [exact E|]. split; assumption.
  - exists m', ls'. split; [by apply mat_uses|]. split; assumption.
Qed.
Theorem matrix_binary_reals e op (m o : matrix R) ls los : real_rows m ls -> real_rows o los -> length o = length m ->
  (forall i v w, m !! i = Some v -> o !! i = Some w -> row_ready e i v /\ meta_agree v w /\ fits_length op (len v) (len w)) ->
  exists m' ls', mat_binary e op m o = Done (m', Ok tt) /\ real_rows m' ls' /\ length ls' = length ls /\
    forall i l lo l', ls !! i = Some l -> los !! i = Some lo -> ls' !! i = Some l' -> combined_cyclic (real_operation op) l lo l'.
Proof.
  intros Hm Ho Hlen Hr. pose proof (Forall2_length _ _ _ Ho) as Llo.
  destruct (build_tried (paired (vec_binary e op) o) reals reals
    (fun i l l' => forall lo, los !! i = Some lo -> combined_cyclic (real_operation op) l lo l') m ls Hm) as (m' & ls' & E & D & L & P).
  - intros i v l Ev El Hv. destruct (lookup_lt_is_Some_2 o i) as [w Ew]; [rewrite Hlen; exact (lookup_lt_Some _ _ _ Ev)|].
    destruct (lookup_lt_is_Some_2 los i) as [lo Elo]; [rewrite <- Llo; exact (lookup_lt_Some _ _ _ Ew)|].
    assert (Hw : reals w lo) by exact (Forall2_lookup_lr _ _ _ _ _ _ Ho Ew Elo).
    destruct (Hr i v w Ev Ew) as (H1 & H2 & H3). destruct (binary_reals e op i v w l lo H1 Hv Hw H2 H3) as (v' & l' & E & D & _ & P).
    exists v', l'. unfold paired. rewrite Ew. split; [exact E|]. split; [exact D|]. intros lo' E'. rewrite Elo in E'. injection E' as <-. exact P.
  - exists m', ls'. split; [by apply C39_matrix_argument|]. split; [exact D|]. split; [exact L|].
    intros i l lo l' E1 E2 E3. exact (P i l l' E1 E3 lo E2).
Qed.
Theorem matrix_binary_complex e op (m o : matrix R) ls los : complex_rows m ls -> complex_rows o los -> length o = length m ->
  (forall i v w, m !! i = Some v -> o !! i = Some w -> row_ready e i v /\ meta_agree v w /\ fits_length op (len v) (len w)) ->
  exists m' ls', mat_binary e op m o = Done (m', Ok tt) /\ complex_rows m' ls' /\ length ls' = length ls /\
    forall i l lo l', ls !! i = Some l -> los !! i = Some lo -> ls' !! i = Some l' -> combined_cyclic (complex_operation op) l lo l'.
Proof.
  intros Hm Ho Hlen Hr. pose proof (Forall2_length _ _ _ Ho) as Llo.
  destruct (build_tried (paired (vec_binary e op) o) cplx cplx
    (fun i l l' => forall lo, los !! i = Some lo -> combined_cyclic (complex_operation op) l lo l') m ls Hm) as (m' & ls' & E & D & L & P).
  - intros i v l Ev El Hv. destruct (lookup_lt_is_Some_2 o i) as [w Ew]; [rewrite Hlen; exact (lookup_lt_Some _ _ _ Ev)|].
    destruct (lookup_lt_is_Some_2 los i) as [lo Elo]; [rewrite <- Llo; exact (lookup_lt_Some _ _ _ Ew)|].
    assert (Hw : cplx w lo) by exact (Forall2_lookup_lr _ _ _ _ _ _ Ho Ew Elo).
    destruct (Hr i v w Ev Ew) as (H1 & H2 & H3). destruct (binary_complex e op i v w l lo H1 Hv Hw H2 H3) as (v' & l' & E & D & _ & P).
    exists v', l'. unfold paired. rewrite Ew. split; [exact E|]. split; [exact D|]. intros lo' E'. rewrite Elo in E'. injection E' as <-. exact P.
  - exists m', ls'. split; [by apply C39_matrix_argument|]. split; [exact D|]. split; [exact L|].
    intros i l lo l' E1 E2 E3. exact (P i l l' E1 E3 lo E2).
Qed.
Theorem matrix_conversion k op (m : matrix R) cs : complex_rows m cs -> to_numbers op -> (forall v, v ∈ m -> typed v) ->
  exists m', mat_conversion k op m = Done m' /\ real_rows m' (map (map (converts op)) cs).
Proof.
  intros Hm Hn Ht.
  destruct (build_rows (fun _ : nat => vec_conversion op) cplx reals (fun c l => l = map (converts op) c) m cs Hm) as (m' & ls' & E & D & P).
  - intros i v c Ev Hv. destruct (conversion_numbers op v c Hn) as (v' & E & D & _); [apply Ht; by apply elem_of_list_lookup_2 with i|exact Hv|].
    exists v', (map (converts op) c). split; [exact E|]. split; [exact D|reflexivity].
  - exists m'. split; [by apply C39_conversions|]. assert (El : ls' = map (map (converts op)) cs).
    { clear -P. induction P as [|x y xs ys Hxy P IH]; [reflexivity|]. cbn. by rewrite Hxy, IH. }
    rewrite <- El. exact D.
Qed.
Theorem matrix_sums e k op (m : matrix R) ls : rows_ok k m -> real_rows m ls -> (forall i v, m !! i = Some v -> row_ready e i v) ->
  mat_sum e k op m = Done (map (fun l => sum_of Rplus 0 (map (summand op) l)) ls).
Proof.
  intros Hk Hm Hr. apply (C39_sums e k op m _ Hk). split; [rewrite map_length; symmetry; exact (Forall2_length _ _ _ Hm)|].
  intros i v Ev. destruct (lookup_lt_is_Some_2 ls i) as [l El]; [rewrite <- (Forall2_length _ _ _ Hm); exact (lookup_lt_Some _ _ _ Ev)|].
  eexists. change (map ?g ls) with (g <$> ls). rewrite list_lookup_fmap, El. split; [reflexivity|].
  exact (sum_numbers e op i v l (Hr i v Ev) (Forall2_lookup_lr _ _ _ _ _ _ Hm Ev El)).
Qed.
Theorem matrix_dots e op (m o : matrix R) ls los : real_rows m ls -> real_rows o los -> length o = length m ->
  (forall i v w, m !! i = Some v -> o !! i = Some w -> row_ready e i v /\ len v = len w) ->
  mat_dot e op m o = Done (Ok (zip_with (fun l lo => sum_of Rplus 0 (zip_with Rmult l lo)) ls los)).
Proof.
  intros Hm Ho Hlen Hr. apply C39_dot_matrix. pose proof (Forall2_length _ _ _ Hm) as L1. pose proof (Forall2_length _ _ _ Ho) as L2.
  split; [rewrite zip_with_length, zip_with_length; lia|].
  intros i [v w] E. apply lookup_zip_with_Some in E as (v0 & w0 & [= <- <-] & Ev & Ew).
  destruct (lookup_lt_is_Some_2 ls i) as [l El]; [rewrite <- L1; exact (lookup_lt_Some _ _ _ Ev)|].
  destruct (lookup_lt_is_Some_2 los i) as [lo Elo]; [rewrite <- L2; exact (lookup_lt_Some _ _ _ Ew)|].
  destruct (Hr i v w Ev Ew) as [H1 H2].
  eexists. rewrite lookup_zip_with, El. cbn. rewrite Elo. cbn. split; [reflexivity|]. cbn [fst snd].
  exact (dot_numbers e op i v w l lo H1 H2 (Forall2_lookup_lr _ _ _ _ _ _ Hm Ev El) (Forall2_lookup_lr _ _ _ _ _ _ Ho Ew Elo)).
Qed.
Theorem matrix_getter e op (m dst : matrix R) cs : complex_rows m cs -> length dst = length m ->
  (forall i v d, m !! i = Some v -> dst !! i = Some d -> row_ready e i v /\ typed v /\ alloc_len v = len v /\ takes d (len v)) ->
  exists dst', mat_getter e op m dst = Done dst' /\ real_rows dst' (map (map (gets (getter_of_matrix op))) cs).
Proof.
  intros Hm Hl Hr.
  assert (Hu : mat_getter e op m dst = mat_getter e (getter_of_matrix op) m dst) by (destruct op; reflexivity).
  rewrite Hu. clear Hu. pose proof (Forall2_length _ _ _ Hm) as L1.
  set (f := fun i o => match m !! i with Some v => vec_getter e (getter_of_matrix op) i v o | None => Done o end).
  assert (Hall : exists dst', each_row f dst dst' /\ real_rows dst' (map (map (gets (getter_of_matrix op))) cs)).
  { assert (Hf : forall i d c, dst !! i = Some d -> cs !! i = Some c -> exists d', f i d = Done d' /\ reals d' (map (gets (getter_of_matrix op)) c)).
    { intros i d c Ed Ec. destruct (lookup_lt_is_Some_2 m i) as [v Ev]; [rewrite L1; exact (lookup_lt_Some _ _ _ Ec)|].
      destruct (Hr i v d Ev Ed) as (H1 & H2 & H3 & H4). unfold f. rewrite Ev.
      destruct (getter_numbers e (getter_of_matrix op) i v d c H1 H2 H3 H4 (Forall2_lookup_lr _ _ _ _ _ _ Hm Ev Ec)) as (d' & E & D & _).
      exists d'. split; assumption. }
    assert (Hlc : length dst = length cs) by (rewrite Hl; exact L1). clearbody f. clear -Hf Hlc. revert f cs Hf Hlc. induction dst as [|d dst IH]; intros f cs Hf Hlc.
    - exists []. destruct cs; [|discriminate]. split; [split; [reflexivity|intros i v E; discriminate E]|constructor].
    - destruct cs as [|c cs]; [discriminate|]. destruct (Hf 0%nat d c eq_refl eq_refl) as (d' & E & D).
      destruct (IH (fun i => f (S i)) cs) as (dst' & [L R] & D').
      { intros i. exact (Hf (S i)). } { cbn in Hlc. lia. }
      exists (d' :: dst'). split; [|constructor; assumption]. split; [cbn; by rewrite L|].
      intros [|i] v Ev; cbn in Ev; [injection Ev as <-; exists d'; split; [reflexivity|exact E] | exact (R i v Ev)]. }
  destruct Hall as (dst' & E & D). exists dst'. split; [|exact D]. apply C39_getters; [destruct op; (left; reflexivity) || (right; reflexivity)|]. exact E.
Qed.

(** *** Foreign functions *)
Context `{F : Fft R} `{RA : Rounding R} `{IsNan R}.
Theorem foreign_reals e fits op (x : ivec R) l : reals (i_vec x) l -> for_reals op -> row_ready e 0 (i_vec x) -> callable e op (i_vec x) ->
  exists y code l', foreign_call e fits (F_inplace op) x = Done (y, code) /\ reals (i_vec y) l' /\ i_buf y = i_buf x /\
    makes_of_reals (used_by_foreign op) l l' /\ (code = 0%Z \/ (len (i_vec y) = 0%nat /\ nisnan (delta (i_vec y)) = true)).
Proof.
  intros Hv Hf Hr Hc.
  destruct (inplace_reals e (used_by_foreign op) 0 (i_vec x) l) as (v' & l' & E & D & P & _); try assumption.
  { destruct op; try done. by destruct f. } { destruct op; try done. by destruct f. }
  assert (Hu : foreign_call e fits (F_inplace op) x = convert_vec (inf (vec_inplace e (used_by_foreign op) 0)) x).
  { destruct op; try reflexivity. destruct f; reflexivity. }
  rewrite Hu. unfold convert_vec, inf. rewrite E, !bind_Done. eexists _, _, l'. split; [reflexivity|]. cbn [i_vec i_buf]. split; [exact D|]. split; [reflexivity|]. split; [exact P|].
  unfold get_error_marker, is_erroneous, len. destruct (valid_len v' =? 0)%nat eqn:E0; [|left; reflexivity].
  destruct (nisnan (delta v')) eqn:E1; [right|left; reflexivity]. split; [by apply Nat.eqb_eq|reflexivity].
Qed.
Theorem foreign_complex e fits op (x : ivec R) c : cplx (i_vec x) c -> for_complex op -> row_ready e 0 (i_vec x) -> callable e op (i_vec x) ->
  exists y code c', foreign_call e fits (F_inplace op) x = Done (y, code) /\ cplx (i_vec y) c' /\ i_buf y = i_buf x /\
    makes_of_complex (used_by_foreign op) (delta (i_vec x)) c c' /\ (code = 0%Z \/ (len (i_vec y) = 0%nat /\ nisnan (delta (i_vec y)) = true)).
Proof.
  intros Hv Hf Hr Hc.
  destruct (inplace_complex e (used_by_foreign op) 0 (i_vec x) c) as (v' & l' & E & D & P & _); try assumption.
  { destruct op; try done. by destruct f. } { destruct op; try done. by destruct f. }
  assert (Hu : foreign_call e fits (F_inplace op) x = convert_vec (inf (vec_inplace e (used_by_foreign op) 0)) x).
  { destruct op; try reflexivity. destruct f; reflexivity. }
  rewrite Hu. unfold convert_vec, inf. rewrite E, !bind_Done. eexists _, _, l'. split; [reflexivity|]. cbn [i_vec i_buf]. split; [exact D|]. split; [reflexivity|]. split; [exact P|].
  unfold get_error_marker, is_erroneous, len. destruct (valid_len v' =? 0)%nat eqn:E0; [|left; reflexivity].
  destruct (nisnan (delta v')) eqn:E1; [right|left; reflexivity]. split; [by apply Nat.eqb_eq|reflexivity].
Qed.
Theorem foreign_binary_reals e fits op (x o : ivec R) l lo : row_ready e 0 (i_vec x) -> reals (i_vec x) l -> reals (i_vec o) lo ->
  meta_agree (i_vec x) (i_vec o) -> fits_length op (len (i_vec x)) (len (i_vec o)) -> nisnan (delta (i_vec x)) = false ->
  exists y l', foreign_call e fits (F_binary op o) x = Done (y, 0%Z) /\ reals (i_vec y) l' /\ i_buf y = i_buf x /\ combined_cyclic (real_operation op) l lo l'.
Proof.
  intros Hr Hv Ho Hm Hf Hnan. destruct (binary_reals e op 0 (i_vec x) (i_vec o) l lo Hr Hv Ho Hm Hf) as (v' & l' & E & D & (M1 & _) & P).
  cbn [foreign_call]. unfold convert_vec, no_buf. rewrite E, !bind_Done. unfold get_error_marker, is_erroneous. rewrite M1, Hnan, andb_false_r.
  exists (IVec v' (i_buf x)), l'. split; [reflexivity|]. split; [exact D|]. split; [reflexivity|exact P].
Qed.
Theorem foreign_binary_complex e fits op (x o : ivec R) l lo : row_ready e 0 (i_vec x) -> cplx (i_vec x) l -> cplx (i_vec o) lo ->
  meta_agree (i_vec x) (i_vec o) -> fits_length op (len (i_vec x)) (len (i_vec o)) -> nisnan (delta (i_vec x)) = false ->
  exists y l', foreign_call e fits (F_binary op o) x = Done (y, 0%Z) /\ cplx (i_vec y) l' /\ i_buf y = i_buf x /\ combined_cyclic (complex_operation op) l lo l'.
Proof.
  intros Hr Hv Ho Hm Hf Hnan. destruct (binary_complex e op 0 (i_vec x) (i_vec o) l lo Hr Hv Ho Hm Hf) as (v' & l' & E & D & (M1 & _) & P).
  cbn [foreign_call]. unfold convert_vec, no_buf. rewrite E, !bind_Done. unfold get_error_marker, is_erroneous. rewrite M1, Hnan, andb_false_r.
  exists (IVec v' (i_buf x)), l'. split; [reflexivity|]. split; [exact D|]. split; [reflexivity|exact P].
Qed.
End rows.
