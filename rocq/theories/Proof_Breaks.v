(** Proofs for C01 and C43: what happens outside of the hypotheses of the theorems. *)
From Verif Require Import Proof_History Nums NumsFlt NumsTrig Proof_Vec Proof_Reorg Proof_ReorgMore Proof_Window Proof_PadB Proof_FftMore Proof_ComplexSet.
From Verif Require Import Model_MatOps Spec_Invalid.
Local Open Scope nat_scope.
(** The result of [rededicate_from] on a real time-domain vector declared complex, whatever its length. *)
Lemma rededicate_odd {A} (zero : A) (v : dvec A) : is_complex v = false -> vdomain v = Time ->
  is_complex (rededicate_from zero VComplexTime v) = true /\ len (rededicate_from zero VComplexTime v) = len v /\
  is_complex (rededicate_from_force VComplexTime v) = true /\ len (rededicate_from_force VComplexTime v) = len v.
Proof. intros Hc Hd. unfold rededicate_from. rewrite Hc, Hd. cbn. done. Qed.

Lemma to_complex_stuck {A} `{Num A} (v : dvec A) : is_complex v = false -> 0 < len v -> ~ can_hold (data v) (2 * len v) -> len v <= alloc_len v -> alloc_len v < 2 * len v ->
  exists w, to_complex v = Done (w, Err TypeCanNotResize) /\ is_complex w = true /\ len w = len v /\ data w = data v.
Proof.
  intros Hc Hl Hh Hle Ha. unfold to_complex. rewrite Hc. unfold zero_interleave.
  assert ((len v * 2 <? len v) = false) as -> by (apply Nat.ltb_ge; lia).
  unfold Model_Vec.resize. rewrite Hc. cbn [andb].
  assert ((alloc_len v <? len v * 2) = true) as -> by (apply Nat.ltb_lt; lia).
  assert (Ht : try_resize n0 (data v) (len v * 2) = (data v, Err TypeCanNotResize)).
  { unfold try_resize, can_hold, alloc_len, s_len in *. destruct (s_kind (data v)); repeat case_match; try done; try lia. 
    all: exfalso; repeat match goal with H : (_ <? _) = _ |- _ => first [apply Nat.ltb_lt in H | apply Nat.ltb_ge in H] | H : (_ <=? _) = _ |- _ => first [apply Nat.leb_le in H | apply Nat.leb_gt in H] end; lia. }
  rewrite Ht. cbn. eexists. split; [reflexivity|]. 
  unfold rededicate_with_runtime_data, complex_result.
  destruct v as [d de dom ns vl]. cbn in *. destruct ns as [| |[]], dom as [| |[]]; cbn in *; try done.
Qed.

Section perform.
  Context {A : Type} `{Num A} `{Flt A} `{Rem A} `{Trig A} `{Math A} `{F : Fft A} `{RA : Rounding A}.

  Lemma perform_to_complex e fits b (v : dvec A) : is_complex v = false -> 0 < len v -> ~ can_hold (data v) (2 * len v) -> len v <= alloc_len v -> alloc_len v < 2 * len v ->
    exists w, perform e fits (C_fallible To_complex b) v = Done w /\ is_complex w = true /\ len w = len v.
  Proof.
    intros Hc Hl Hh Hle Ha. destruct (to_complex_stuck v Hc Hl Hh Hle Ha) as (w & E & Hw & Hlen & _). exists w.
    cbn [perform vec_fallible]. rewrite E. by cbn.
  Qed.
  Lemma perform_fixed e fits (v : dvec A) l n store : reals v l -> alloc_len v < n -> n <= length store ->
    exists w, perform e fits (C_zero_pad_b n End (FixedLenBuffer store)) v = Done w /\ len w = n /\ alloc_len w = alloc_len v /\ vdata w = Panicked.
  Proof.
    intros Hv Hn Hs. pose proof Hv as [Hc Hd]. pose proof (vdata_inv _ _ Hd) as (Hl & Hal & Htk).
    cbn [perform]. unfold zero_pad_b. rewrite Hc.
    assert (length l <= alloc_len v) as Hla by (unfold alloc_len, s_len, elems in *; lia).
    cbv zeta. unfold len. rewrite Hl. destruct (n <=? length l) eqn:E; [apply Nat.leb_le in E; lia|].
    cbn [borrow]. assert ((length store <? n) = false) as -> by (apply Nat.ltb_ge; lia).
    rewrite bind_Done. assert (Hsl : slice (elems v) 0 (length l) = Done l) by (unfold vdata in Hd; rewrite Hl in Hd; done).
    rewrite Hsl, bind_Done. rewrite padb_end by (rewrite ?take_length; lia). rewrite bind_Done. cbn [trade].
    eexists. split; [reflexivity|]. split; [done|].
    assert (Hlen : length (take (Nat.min (s_len (data v)) (length (l ++ replicate (n - length l) n0))) (l ++ replicate (n - length l) n0) ++
        drop (Nat.min (s_len (data v)) (length (l ++ replicate (n - length l) n0))) (s_elems (data v))) = alloc_len v).
    { unfold alloc_len, s_len in *. rewrite app_length, take_length, drop_length, !app_length, replicate_length. lia. }
    split; [exact Hlen|]. unfold vdata, elems. cbn [set_valid_len set_data Model_Vec.data valid_len s_elems]. unfold slice.
    assert ((length (take (Nat.min (s_len (data v)) (length (l ++ replicate (n - length l) n0))) (l ++ replicate (n - length l) n0) ++
        drop (Nat.min (s_len (data v)) (length (l ++ replicate (n - length l) n0))) (s_elems (data v))) <? n) = true) as Hlt by (apply Nat.ltb_lt; lia).
    apply Nat.ltb_lt, Nat.leb_gt in Hlt. rewrite Hlt. by rewrite andb_false_r.
  Qed.
  Lemma perform_window e fits (w : window A) v l : reals v l -> l <> [] -> w_symmetric w = false ->
    exists v' l', perform e fits (C_inplace (Apply_window w)) v = Done v' /\ reals v' l' /\ windowed nmul (w_fun w) l l'.
  Proof.
    intros Hv Hl Hw. destruct (apply_window_spec w (e_set e) (e_sched e 0 0) v) as [Hr _].
    - rewrite Hw. discriminate.
    - intros _. left. destruct Hv as [Hc Hd]. apply vdata_inv in Hd as (Hn & _). unfold points, len. rewrite Hc, Hn, Nat.div_1_r. destruct l; [done|cbn; lia].
    - destruct (Hr l Hv) as (v' & l' & E & R & W & _). exists v', l'. by split_and!.
  Qed.
  Lemma perform_shift e fits (v : dvec A) l : reals v l ->
    exists v' l', perform e fits (C_inplace Fft_shift) v = Done v' /\ reals v' l' /\ rotated_by (length l / 2) l l'.
  Proof. intros Hv. destruct (swap_halves_real v l Hv) as (v' & l' & _ & E & R & Hrot & _). exists v', l'. by split_and!. Qed.
  Lemma perform_set e fits (v x y : dvec A) lx ly : is_complex v = false -> s_kind (data v) = KVec -> reals x lx -> reals y ly -> length lx = length ly ->
    exists v', perform e fits (C_set Set_real_imag x y) v = Done v' /\ reals v' (complex_to_array (zip lx ly)).
  Proof.
    intros Hc Hk [_ Hx] [_ Hy] Hl. destruct (set_real_imag_spec v x y lx ly Hk Hx Hy Hl) as (v' & E & D & M & _). exists v'.
    cbn [perform vec_setter2]. rewrite E. split; [done|]. split; [|done]. destruct M as (_ & _ & Hns). unfold is_complex in *. by rewrite Hns.
  Qed.
  Lemma generic_typed (v : dvec A) : generic v -> typed v.
  Proof. intros [[c Hc] [d Hd]]. unfold typed. rewrite Hc, Hd. exact I. Qed.
  Lemma perform_ifft : (forall c : list (A * A), length (fft_inverse c) = length c) -> forall e fits b (v : dvec A) l, typed v -> reals v l -> l <> [] -> vdomain v = Frequency ->
    lends b v (2 * length l) -> spare b (2 * fft_inplace_scratch_len (length l)) ->
    exists v', perform e fits (C_buffered Plain_ifft b) v = Done v' /\ cplx v' (fft_inverse (map (fun x => (x, n0)) l)).
  Proof.
    intros Hi e fits b v l Ht Hv Hl Hd Hb Hs. destruct (plain_ifft_any_real Hi b v l Hv Hl Hd Ht Hb Hs) as (v' & b' & E & R & _). exists v'.
    cbn [perform vec_buffered]. rewrite E. by split.
  Qed.
End perform.
