(** Theorems for C73: rounding errors of [statistics] *)
From Verif Require Import Proof_Stats Proof_StatsOps Proof_Prec Proof_PrecOps Proof_Round Spec_Round Model_Double Props_Stats Props_Prec Props_Round Props_RoundConv.
From stdpp Require Import tactics.
From Coq Require Import Lia.
Local Open Scope R_scope.

Section machine.
Context {A : Type} `{Num A} (val : A -> R) (usual : A -> Prop) (u : R) (HR : rounds val usual u) (Hu : 0 <= u).
(** The sum of a worker after the merge has added it to zero *)
Lemma total_near l : INR (length l + 1) * u <= 1 -> (forall x, x ∈ l -> usual x) ->
  usual (n0 + foldl nadd n0 l)%num /\ within u (2 * INR (length l + 1)) (map val l) (val (n0 + foldl nadd n0 l)%num).
Proof.
  intros Hk Hx. assert (N : near val usual u (length l + 1) (map val l) (n0 + foldl nadd n0 l)%num).
  { rewrite Nat.add_1_r. change (map val l) with ([] ++ map val l). apply (near_add val usual u HR Hu); [apply (near_le val usual u Hu 0); [lia|by apply near_zero]|].
    by apply near_plain. }
  split; [apply N|]. by apply (near_within val usual u Hu).
Qed.
End machine.

(** [statistics] of complex vectors; the one of real vectors is [C73_statistics] *)
Theorem C73_statistics_complex : forall {A} `{Num A} `{Flt A} (val : A -> R) usual u, rounds val usual u -> 0 <= u -> forall s order (v : dvec A) c,
  cplx v c -> c <> [] -> INR (length c + 1) * u <= 1 -> (forall x, x ∈ c -> usual (fst x) /\ usual (snd x)) ->
  exists st, vstatistics_complex s order v = Done st /\ st_count st = length c /\
    within u (2 * INR (length c + 1)) (map (fun x => val (fst x)) c) (val (fst (st_sum st))) /\
    within u (2 * INR (length c + 1)) (map (fun x => val (snd x)) c) (val (snd (st_sum st))).
Proof.
  intros A HN HF val usual u HR Hu s order v c [_ Hv] Hne Hk Hl. unfold vstatistics_complex. rewrite (vdata_slice v _ Hv), bind_Done, get_chunked_small.
  destruct c as [|[y1 y2] c]; [done|]. change (complex_to_array ((y1, y2) :: c)) with (y1 :: y2 :: complex_to_array c). cbv iota.
  change (y1 :: y2 :: complex_to_array c) with (complex_to_array ((y1, y2) :: c)). unfold complex_piece. rewrite array_to_complex_Done, !bind_Done.
  eexists. split; [reflexivity|]. set (l := (y1, y2) :: c) in *. clearbody l. cbn [fst]. change (0 / 2)%nat with 0%nat.
  destruct (stats_worker_raw (P := A * A) 0 l) as (E1 & E2 & E3 & _). rewrite stats_merge_one. unfold finished. cbn [st_sum st_count st_average st_rms].
  rewrite E1, E2. cbn [t_add t_zero complex_stats]. rewrite csum_parts. unfold cadd. cbn [fst snd]. split; [done|].
  rewrite <- (map_map fst val), <- (map_map snd val).
  assert (Em1 : length (map fst l) = length l) by apply map_length. assert (Em2 : length (map snd l) = length l) by apply map_length. split.
  - rewrite <- Em1. apply (total_near val usual u HR Hu); [by rewrite Em1|]. intros z (w & -> & Hw)%elem_of_list_fmap. exact (proj1 (Hl _ Hw)).
  - rewrite <- Em2. apply (total_near val usual u HR Hu); [by rewrite Em2|]. intros z (w & -> & Hw)%elem_of_list_fmap. exact (proj2 (Hl _ Hw)).
Qed.
Print Assumptions C73_statistics_complex.

(** f64 *)
Theorem C73_statistics_f64 : forall `{Flt R} s order (v : dvec R) l, reals v l -> l <> [] -> (Z.of_nat (length l + 1) <= 2 ^ 53)%Z ->
  (forall x, x ∈ l -> generic_format radix2 (FLT_exp (-1074) 53) x) ->
  exists st, @vstatistics R f64_num _ s order v = Done st /\ st_count st = length l /\
    Rabs (st_sum st - Rsum l) <= INR (length l + 1) * / 2 ^ 52 * Rsum (map Rabs l).
Proof.
  intros HF s order v l Hv Hne Hn Hx. destruct C67_f64 as [HR _].
  assert (Hk : INR (length l + 1) * / 2 ^ 53 <= 1).
  { apply (Rmult_le_reg_r (2 ^ 53)); [apply Rlt_gt, pow_lt; lra|]. rewrite Rmult_assoc, Rinv_l, Rmult_1_r, Rmult_1_l by (apply Rgt_not_eq, pow_lt; lra).
    rewrite INR_IZR_INZ, pow_IZR. apply IZR_le. exact Hn. }
  destruct (@C73_statistics R f64_num HF (fun x => x) _ _ HR (proj1 f64_small_unit) s order v l Hv Hne Hk Hx) as (st & E & Ec & W & _).
  exists st. split; [exact E|]. split; [exact Ec|]. unfold within in W. rewrite map_id in W. refine (Rle_trans _ _ _ W _). right.
  change (2 ^ 53) with (2 * 2 ^ 52). rewrite Rinv_mult. field.
Qed.
Print Assumptions C73_statistics_f64.
Example C73_statistics_example : forall `{Flt R}, exists st, @vstatistics R f64_num _ ex_set [] (double_vec (IZR (2 ^ 53) :: replicate 100 (/ 2))) = Done st /\ st_count st = 101%nat /\
  Rabs (st_sum st - Rsum (IZR (2 ^ 53) :: replicate 100 (/ 2))) <= INR 102 * / 2 ^ 52 * Rsum (map Rabs (IZR (2 ^ 53) :: replicate 100 (/ 2))).
Proof.
  intros HF. assert (El : length (IZR (2 ^ 53) :: replicate 100 (/ 2)) = 101%nat) by (cbn [length]; rewrite replicate_length; reflexivity).
  assert (Hu : forall z, z ∈ IZR (2 ^ 53) :: replicate 100 (/ 2) -> generic_format radix2 (FLT_exp (-1074) 53) z).
  { intros z [->|Hz]%elem_of_cons; [exact big_usual|]. apply elem_of_replicate_inv in Hz as ->. exact half_usual. }
  destruct (C73_statistics_f64 ex_set [] _ _ (double_reals (IZR (2 ^ 53) :: replicate 100 (/ 2)))) as (st & E & Ec & W).
  - discriminate.
  - rewrite El. lia.
  - exact Hu.
  - exists st. split; [exact E|]. split; [rewrite Ec; exact El|]. rewrite El in W. exact W.
Qed.
