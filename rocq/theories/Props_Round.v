(** Theorems for C73: rounding errors of the plain sums and dot products *)
From Verif Require Import Proof_StatsOps Proof_Prec Proof_PrecOps Proof_PrecDot2 Proof_Dot Proof_Round Spec_Round Model_Double Props_Stats Props_Prec.
From stdpp Require Import tactics.
From Coq Require Import Lia.
Local Open Scope R_scope.

Section finish.
Context {A : Type} `{Num A} (val : A -> R) (usual : A -> Prop) (u : R).
Lemma near_half k (p : A * A -> A) c x : 0 <= u -> INR k * u <= 1 -> near val usual u k (map val (map p c)) x -> within u (2 * INR k) (map (fun y => val (p y)) c) (val x).
Proof. intros Hu Hk N. rewrite map_map in N. exact (near_within val usual u Hu k _ x Hk N). Qed.
End finish.

(** [sum] and [sum_sq], whatever the registers, the address, the settings and the schedule are *)
Theorem C73_sum : forall {A} `{Num A} (val : A -> R) usual u, rounds val usual u -> 0 <= u -> forall r addr s order (v : dvec A) l,
  reg_ok r -> elem_aligned r addr -> address_ok r addr v -> reals v l -> INR (depth (length l) (reg_len r)) * u <= 1 ->
  ((forall x, x ∈ l -> usual x) -> exists x, vsum r addr s order v = Done x /\ usual x /\ within u (2 * INR (depth (length l) (reg_len r))) (map val l) (val x)) /\
  ((forall x, x ∈ l -> usual (x * x)%num) -> exists x, vsum_sq r addr s order v = Done x /\ usual x /\
     within u (2 * INR (depth (length l) (reg_len r))) (map (fun y => val (y * y)%num) l) (val x)).
Proof.
  intros A HN val usual u HR Hu r addr s order v l Hr Ha Hok [Hc Hv] Hk. pose proof (address_ok_real _ _ _ _ Hv Hok) as Hf. split; intros Hx.
  - destruct (real_sum_near val usual u HR Hu (fun x => x) (fun x => x) r addr s order v l Hr Ha Hv Hf) as (x & E & N); [intros b; by rewrite map_id|exact Hx|].
    exists x. split; [exact E|]. split; [apply N|]. rewrite map_id in N. exact (near_within val usual u Hu _ _ x Hk N).
  - destruct (real_sum_near val usual u HR Hu (fun x => reg_bin nmul x x) (fun x => x * x)%num r addr s order v l Hr Ha Hv Hf) as (x & E & N); [|exact Hx|].
    { intros b. unfold reg_bin. clear. induction b as [|x b IH]; [done|]. cbn [zip_with map]. by rewrite IH. }
    exists x. split; [exact E|]. split; [apply N|]. rewrite map_map in N. exact (near_within val usual u Hu _ _ x Hk N).
Qed.
Print Assumptions C73_sum.
(** Of complex vectors, for the real and for the imaginary parts: a register holds half as many complex numbers. *)
Theorem C73_sum_complex : forall {A} `{Num A} (val : A -> R) usual u, rounds val usual u -> 0 <= u -> forall r addr s order (v : dvec A) c, let k := depth (length c) (reg_len r / 2) in
  reg_ok r -> elem_aligned r addr -> address_ok r addr v -> cplx v c -> whole_points v -> INR k * u <= 1 ->
  ((forall x, x ∈ c -> usual (fst x) /\ usual (snd x)) -> exists x, vsum_complex r addr s order v = Done x /\
     within u (2 * INR k) (map (fun y => val (fst y)) c) (val (fst x)) /\ within u (2 * INR k) (map (fun y => val (snd y)) c) (val (snd x))) /\
  ((forall x, x ∈ c -> usual (fst (complex_product x x)) /\ usual (snd (complex_product x x))) -> exists x, vsum_sq_complex r addr s order v = Done x /\
     within u (2 * INR k) (map (fun y => val (fst (complex_product y y))) c) (val (fst x)) /\
     within u (2 * INR k) (map (fun y => val (snd (complex_product y y))) c) (val (snd x))).
Proof.
  intros A HN val usual u HR Hu r addr s order v c k Hr Ha Hok Hv Hw Hk. split; intros Hx.
  - destruct (cplx_sum_near val usual u HR Hu (fun x => x) (fun x => x) r addr s order v c Hr Ha Hv Hw Hok) as (x & E & N1 & N2); [|exact Hx|].
    { intros b Hb. by rewrite map_id, complex_to_array_pairs_of. }
    exists x. split; [exact E|]. rewrite map_id in N1, N2. split; [exact (near_half val usual u k fst c _ Hu Hk N1)|exact (near_half val usual u k snd c _ Hu Hk N2)].
  - destruct (cplx_sum_near val usual u HR Hu (fun x => reg_cbin cmul x x) (fun x => cmul x x) r addr s order v c Hr Ha Hv Hw Hok) as (x & E & N1 & N2); [|exact Hx|].
    { intros b _. unfold reg_cbin. f_equal. generalize (pairs_of b). clear. induction l as [|x l IH]; [done|]. cbn [zip_with map]. by rewrite IH. }
    exists x. split; [exact E|]. rewrite (map_map _ fst) in N1. rewrite (map_map _ snd) in N2.
    split; [exact (near_half val usual u k (fun x => fst (cmul x x)) c _ Hu Hk N1)|exact (near_half val usual u k (fun x => snd (cmul x x)) c _ Hu Hk N2)].
Qed.
Print Assumptions C73_sum_complex.
(** [dot_product], relative to the products as they are rounded *)
Theorem C73_dot : forall {A} `{Num A} (val : A -> R) usual u, rounds val usual u -> 0 <= u -> forall r addr s order (v o : dvec A) l lo,
  reg_ok r -> elem_aligned r addr -> address_ok r addr v -> reals v l -> reals o lo -> length lo = length l ->
  INR (depth (length l) (reg_len r)) * u <= 1 -> (forall x, x ∈ zip_with nmul l lo -> usual x) ->
  exists x, dot_product r addr s order v o = Done (Ok x) /\ usual x /\
    within u (2 * INR (depth (length l) (reg_len r))) (map val (zip_with nmul l lo)) (val x).
Proof.
  intros A HN val usual u HR Hu r addr s order v o l lo Hr Ha Hok Hv [_ Ho] Hl Hk Hx.
  destruct (real_dot_near val usual u HR Hu r addr s order v o l lo [] Hr Ha Hv) as (x & E & N); [by rewrite app_nil_r|done|by apply (address_ok_real _ _ v); [apply Hv|]|done|].
  exists x. split; [exact E|]. split; [apply N|]. exact (near_within val usual u Hu _ _ x Hk N).
Qed.
Print Assumptions C73_dot.
Theorem C73_dot_complex : forall {A} `{Num A} (val : A -> R) usual u, rounds val usual u -> 0 <= u -> forall r addr s order (v o : dvec A) c co, let k := depth (length c) (reg_len r / 2) in
  reg_ok r -> elem_aligned r addr -> address_ok r addr v -> cplx v c -> cplx o co -> length co = length c -> vdomain v = vdomain o -> whole_points v ->
  INR k * u <= 1 -> (forall x, x ∈ zip_with complex_product c co -> usual (fst x) /\ usual (snd x)) ->
  exists x, dot_product_complex r addr s order v o = Done (Ok x) /\
    within u (2 * INR k) (map (fun y => val (fst y)) (zip_with complex_product c co)) (val (fst x)) /\
    within u (2 * INR k) (map (fun y => val (snd y)) (zip_with complex_product c co)) (val (snd x)).
Proof.
  intros A HN val usual u HR Hu r addr s order v o c co k Hr Ha Hok Hv Ho Hl Hd Hw Hk Hx.
  destruct (cplx_dot_near val usual u HR Hu r addr s order v o c co [] Hr Ha Hv) as (x & E & N1 & N2); try done; [by rewrite app_nil_r|].
  exists x. split; [exact E|]. split; [exact (near_half val usual u k fst _ _ Hu Hk N1)|exact (near_half val usual u k snd _ _ Hu Hk N2)].
Qed.
Print Assumptions C73_dot_complex.
(** The plain statistics have no registers: the sums go from left to right, and one addition merges them. *)
Theorem C73_statistics : forall {A} `{Num A} `{Flt A} (val : A -> R) usual u, rounds val usual u -> 0 <= u -> forall s order (v : dvec A) l,
  reals v l -> l <> [] -> INR (length l + 1) * u <= 1 -> (forall x, x ∈ l -> usual x) ->
  exists st, vstatistics s order v = Done st /\ st_count st = length l /\ within u (2 * INR (length l + 1)) (map val l) (val (st_sum st)) /\
    st_average st = (st_sum st / nofnat (length l))%num /\
    ((forall x, x ∈ l -> usual (x * x)%num) ->
     exists sq, st_rms st = fsqrt (sq / nofnat (length l))%num /\ within u (2 * INR (length l + 1)) (map (fun x => val (x * x)%num) l) (val sq)).
Proof.
  intros A HN HF val usual u HR Hu s order v l [_ Hv] Hne Hk Hx. unfold vstatistics. rewrite (vdata_slice v l Hv), bind_Done, get_chunked_small.
  destruct l as [|y l]; [done|]. unfold real_piece. rewrite !bind_Done. eexists. split; [reflexivity|]. set (l' := y :: l) in *. clearbody l'. cbn [fst].
  destruct (stats_worker_raw (P := A) 0 l') as (E1 & E2 & E3 & _). rewrite stats_merge_one. unfold finished. cbn [st_sum st_count st_average st_rms].
  rewrite E1, E2, E3. cbn [t_add t_zero t_mul t_divn t_sqrt real_stats].
  split_and!; [done|by apply (plain_finished val usual)|done|].
  intros Hsq. eexists. split; [reflexivity|].
  replace (map (fun x => val (x * x)%num) l') with (map val (map (fun x => (x * x)%num) l')) by (by rewrite !map_map).
  replace (length l') with (length (map (fun x : A => (x * x)%num) l')) by apply map_length.
  apply (plain_finished val usual); [exact HR|exact Hu|by rewrite map_length|]. intros z (w & -> & Hw)%elem_of_list_fmap. by apply Hsq.
Qed.
Print Assumptions C73_statistics.

(** So the result depends on where the vector lies and on what registers there are, but not by more than rounding: two sums of the same numbers on two machines *)
Theorem C73_anywhere : forall {A} `{Num A} (val : A -> R) usual u, rounds val usual u -> 0 <= u -> forall r addr s order r' addr' s' order' (v v' : dvec A) l x x',
  let k := depth (length l) (reg_len r) in let k' := depth (length l) (reg_len r') in
  reg_ok r -> elem_aligned r addr -> address_ok r addr v -> reg_ok r' -> elem_aligned r' addr' -> address_ok r' addr' v' -> reals v l -> reals v' l ->
  INR k * u <= 1 -> INR k' * u <= 1 -> (forall x, x ∈ l -> usual x) -> vsum r addr s order v = Done x -> vsum r' addr' s' order' v' = Done x' ->
  Rabs (val x - val x') <= 2 * INR (k + k') * u * Rsum (map Rabs (map val l)).
Proof.
  intros A HN val usual u HR Hu r addr s order r' addr' s' order' v v' l x x' k k' Hr Ha Hok Hr' Ha' Hok' Hv Hv' Hk Hk' Hx E E'.
  destruct (proj1 (C73_sum val usual u HR Hu r addr s order v l Hr Ha Hok Hv Hk) Hx) as (y & Ey & _ & W).
  destruct (proj1 (C73_sum val usual u HR Hu r' addr' s' order' v' l Hr' Ha' Hok' Hv' Hk') Hx) as (y' & Ey' & _ & W').
  rewrite E in Ey. injection Ey as <-. rewrite E' in Ey'. injection Ey' as <-. unfold within in W, W'. fold k in W. fold k' in W'. rewrite plus_INR.
  set (b := Rsum (map Rabs (map val l))) in *. set (t := Rsum (map val l)) in *. clearbody b t.
  replace (val x - val x') with ((val x - t) + - (val x' - t)) by ring. pose proof (Rabs_triang (val x - t) (- (val x' - t))) as T. rewrite Rabs_Ropp in T.
  replace (2 * (INR k + INR k') * u * b) with (2 * INR k * u * b + 2 * INR k' * u * b) by ring. lra.
Qed.
Print Assumptions C73_anywhere.

(** f64 with registers of up to 16 numbers: a vector may have 2^52 elements. *)
Theorem C73_f64 : forall r addr s order (v : dvec R) l, reg_ok r -> (reg_len r <= 16)%nat -> elem_aligned r addr -> address_ok r addr v -> reals v l ->
  (Z.of_nat (length l) <= 2 ^ 52)%Z -> (forall x, x ∈ l -> generic_format radix2 (FLT_exp (-1074) 53) x) ->
  exists x, @vsum R f64_num r addr s order v = Done x /\
  Rabs (x - Rsum l) <= INR (depth (length l) (reg_len r)) * / 2 ^ 52 * Rsum (map Rabs l).
Proof.
  intros r addr s order v l Hr H16 Ha Hok Hv Hl Hx. destruct C67_f64 as [HR _].
  assert (Hw : (0 < reg_len r)%nat) by (by destruct Hr as (_ & ? & _)).
  assert (Hd : (depth (length l) (reg_len r) <= length l + 32)%nat).
  { unfold depth. pose proof (Nat.div_le_upper_bound (length l) (reg_len r) (length l) ltac:(lia) ltac:(nia)). lia. }
  assert (Hk : INR (depth (length l) (reg_len r)) * / 2 ^ 53 <= 1).
  { apply (Rmult_le_reg_r (2 ^ 53)); [apply Rlt_gt, pow_lt; lra|]. rewrite Rmult_assoc, Rinv_l, Rmult_1_r, Rmult_1_l by (apply Rgt_not_eq, pow_lt; lra).
    rewrite INR_IZR_INZ, pow_IZR. apply IZR_le. change (2 ^ 52)%Z with 4503599627370496%Z in Hl. change (2 ^ Z.of_nat 53)%Z with 9007199254740992%Z. lia. }
  destruct (proj1 (@C73_sum R f64_num (fun x => x) _ _ HR (proj1 f64_small_unit) r addr s order v l Hr Ha Hok Hv Hk) Hx) as (x & E & _ & W).
  exists x. split; [exact E|]. unfold within in W. rewrite map_id in W. refine (Rle_trans _ _ _ W _). right.
  replace (/ 2 ^ 52) with (2 * / 2 ^ 53); [ring|]. change (2 ^ 53) with (2 * 2 ^ 52). rewrite Rinv_mult. field.
Qed.
Print Assumptions C73_f64.

Example C73_example : exists x, @vsum R f64_num f64x4 0 ex_set [] (double_vec (IZR (2 ^ 53) :: replicate 100 (/ 2))) = Done x /\
  Rabs (x - Rsum (IZR (2 ^ 53) :: replicate 100 (/ 2))) <= INR 33 * / 2 ^ 52 * Rsum (map Rabs (IZR (2 ^ 53) :: replicate 100 (/ 2))).
Proof.
  assert (El : 101%nat = length (IZR (2 ^ 53) :: replicate 100 (/ 2))) by (cbn [length]; rewrite replicate_length; reflexivity).
  assert (Hr : reg_ok f64x4) by (split_and!; vm_compute; lia || reflexivity).
  assert (H4 : (reg_len f64x4 <= 16)%nat) by (vm_compute; lia).
  assert (Ha : elem_aligned f64x4 0%nat) by reflexivity.
  assert (Hok : address_ok f64x4 0%nat (double_vec (IZR (2 ^ 53) :: replicate 100 (/ 2)))) by (left; split; [reflexivity|discriminate]).
  assert (Hu : forall z, z ∈ IZR (2 ^ 53) :: replicate 100 (/ 2) -> generic_format radix2 (FLT_exp (-1074) 53) z).
  { intros z [->|Hz]%elem_of_cons; [exact big_usual|]. apply elem_of_replicate_inv in Hz as ->. exact half_usual. }
  destruct (C73_f64 f64x4 0%nat ex_set [] _ _ Hr H4 Ha Hok (double_reals (IZR (2 ^ 53) :: replicate 100 (/ 2)))) as (x & E & W).
  - rewrite <- El. lia.
  - exact Hu.
  - exists x. split; [exact E|]. rewrite <- El in W. change (depth 101 (reg_len f64x4)) with 33%nat in W. exact W.
Qed.
