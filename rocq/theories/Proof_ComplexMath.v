(** [conj], the complex exponential and the functions applied point by point. *)
From Verif Require Export Proof_ComplexSet Model_Real Spec_Sum.

Section math.
Context {A : Type} `{Num A} `{Flt A}.

Lemma nothing_small s : no_threads_for_nothing Small s.
Proof. unfold no_threads_for_nothing. pose proof (small_single 0 s). lia. Qed.

Lemma meta_is_complex (v w : dvec A) : same_meta v w -> is_complex w = is_complex v.
Proof. intros (_ & _ & Hn). unfold is_complex. by rewrite Hn. Qed.

(** ** conj *)
Lemma conj_block (p : list (A * A)) : (forall x, x * n1 = x)%num -> (forall x, x * nopp n1 = nopp x)%num ->
  reg_bin nmul (complex_to_array p) (complex_to_array (replicate (length p) (n1, nopp n1))) = complex_to_array (map cconj p).
Proof. intros H1 H2. induction p as [|[x y] p IH]; [done|]. simpl. rewrite H1, H2. f_equal. f_equal. exact IH. Qed.

Theorem conj_spec r addr s sched (v : dvec A) c : (forall x, x * n1 = x)%num -> (forall x, x * nopp n1 = nopp x)%num ->
  reg_ok r -> elem_aligned r addr -> cplx v c -> address_ok r addr v ->
  exists v', vconj r addr s sched v = Done v' /\ cplx v' (map (fun '(x, y) => (x, nopp y)) c) /\ same_meta v v' /\ same_rest v v'.
Proof.
  intros L1 L2 Hr Ha Hv Hok. pose proof (address_ok_cplx r addr v c Hv Hok) as Hf. destruct Hv as [Hc Hv].
  unfold vconj, check_complex. rewrite Hc. simpl negb. cbv iota.
  destruct (simd_complex_operation_spec r addr s sched (fun x => reg_bin nmul x (from_complex r (n1, nopp n1))) cconj Small v c Hr Ha (nothing_small s) Hv)
    as (v' & E & D & M & R); [|done|].
  - intros b Hb. destruct Hr as (_ & _ & Hev). rewrite <- Hb in Hev. unfold from_complex, on_pairs. rewrite <- Hb.
    rewrite <- (complex_to_array_pairs_of b Hev) at 1. rewrite <- (pairs_of_length b). apply conj_block; done.
  - exists v'. split; [done|]. split_and!; try done. split; [by rewrite (meta_is_complex v v' M)|]. rewrite D. do 2 f_equal.
    apply map_ext. by intros [x y].
Qed.

(** A vector without points stays without points *)
Lemma invalid_vdata (v : dvec A) : vdata (mark_vector_as_invalid v) = Done [].
Proof. unfold vdata. simpl. rewrite slice_Done by lia. done. Qed.

Theorem conj_on_real r addr s sched (v : dvec A) : reg_ok r -> elem_aligned r addr -> is_complex v = false ->
  (forall x, x * n1 = x)%num -> (forall x, x * nopp n1 = nopp x)%num ->
  exists v', vconj r addr s sched v = Done v' /\ poisoned v' /\ is_complex v' = false.
Proof.
  intros Hr Ha Hc L1 L2. unfold vconj, check_complex. rewrite Hc. simpl negb. cbv iota.
  set (w := mark_vector_as_invalid _).
  destruct (simd_complex_operation_spec r addr s sched (fun x => reg_bin nmul x (from_complex r (n1, nopp n1))) cconj Small w [] Hr Ha (nothing_small s))
    as (v' & E & D & M & R).
  - apply invalid_vdata.
  - intros b Hb. destruct Hr as (_ & _ & Hev). rewrite <- Hb in Hev. unfold from_complex, on_pairs. rewrite <- Hb.
    rewrite <- (complex_to_array_pairs_of b Hev) at 1. rewrite <- (pairs_of_length b). apply conj_block; done.
  - right. destruct Hr as (_ & Hl & _). change (2 * length (@nil (A * A))) with 0. eapply Nat.lt_le_trans; [exact Hl|apply Nat.le_add_l].
  - exists v'. split; [done|]. destruct M as (M1 & M2 & M3). destruct R as (_ & _ & R & _). unfold poisoned, len, is_complex in *. rewrite M1, M3, R.
    split; [done|]. simpl. by destruct (number_space v).
Qed.

(** ** multiply_complex_exponential *)
Lemma exponential_fold (inc : A * A) (c : list (A * A)) : forall d e0,
  fst (foldl (fun '(done, e) x => (done ++ [cmul x e], cmul e inc)) (d, e0) c) =
  d ++ imap (fun i x => cmul x (Nat.iter i (fun e => cmul e inc) e0)) c.
Proof.
  induction c as [|x c IH]; intros d e0; [by rewrite app_nil_r|]. cbn [foldl]. rewrite IH, <- app_assoc. f_equal. simpl. f_equal.
  apply imap_ext. intros i y _. simpl. f_equal. symmetry. apply (Nat.iter_succ_r i (fun e => cmul e inc) e0).
Qed.

Lemma imap_const_length {B C} (f : nat -> B -> C) l : length (imap f l) = length l.
Proof. apply imap_length. Qed.

Section exact.
Context (R : exact_ring A).
Let R' : ring_theory n0 n1 nadd nmul nsub nopp (@eq A) := R.
Add Ring Aring : R'.

Theorem exponential_spec s sched (a b : A) (v : dvec A) c :
  (forall x y, fpolar n1 (x + y)%num = cmul (fpolar n1 x) (fpolar n1 y)) -> nofnat 0 = n0 -> (forall n, nofnat (S n) = nofnat n + n1)%num ->
  cplx v c ->
  exists v', multiply_complex_exponential s sched a b v = Done v' /\
    cplx v' (imap (fun i x => cmul x (fpolar n1 ((a * nofnat i + b) * delta v)%num)) c) /\ same_meta v v' /\ same_rest v v'.
Proof.
  intros Hp N0 NS [Hc Hv]. destruct (vdata_split v _ Hv) as (rest & He & Hn). unfold multiply_complex_exponential, check_complex. rewrite Hc. simpl negb. cbv iota zeta.
  unfold len. rewrite Hn, He, slice_pre, bind_Done, execute_with_range_small. cbn [fst]. rewrite run_steps_cons, array_to_complex_Done, bind_Done.
  destruct (foldl _ _ c) as [c' e] eqn:Ef. pose proof (exponential_fold (fpolar n1 (a * delta v)%num) c []
    (cmul (fpolar n1 (b * delta v)%num) (fpolar n1 (a * delta v * nofnat (0 / 2))%num))) as Hx. rewrite Ef in Hx. simpl fst in Hx. subst c'.
  cbn [run_steps foldl]. rewrite !bind_Done. rewrite app_nil_l.
  change (@run_steps A []) with (fun t : list A => Done t). cbv beta. rewrite bind_Done. clear Ef e.
  set (c1 := imap _ c). rewrite splice_pre by (rewrite !complex_to_array_length; unfold c1; by rewrite imap_length). rewrite bind_Done.
  destruct (set_elems_after v (complex_to_array c) (complex_to_array c1) rest He Hn) as (V1 & V2 & V3).
  { rewrite !complex_to_array_length. unfold c1. by rewrite imap_length. }
  eexists. split; [reflexivity|]. split_and!; try done. split; [done|]. rewrite V1. do 2 f_equal. unfold c1. apply imap_ext.
  intros i x _. simpl. f_equal. change (0 / 2) with 0. clear x. induction i as [|i IH].
  - simpl. rewrite <- Hp. f_equal. rewrite N0. ring.
  - change (Nat.iter (S i) ?f ?x) with (f (Nat.iter i f x)). cbv beta. etransitivity; [exact (f_equal (fun z => cmul z _) IH)|]. rewrite <- Hp. f_equal. rewrite NS. ring.
Qed.
End exact.

Theorem exponential_on_real s sched (a b : A) (v : dvec A) : is_complex v = false ->
  exists v', multiply_complex_exponential s sched a b v = Done v' /\ poisoned v' /\ is_complex v' = false.
Proof.
  intros Hc. unfold multiply_complex_exponential, check_complex. rewrite Hc. simpl negb. cbv iota zeta.
  set (w := mark_vector_as_invalid _). change (len w) with 0. rewrite slice_Done by lia. rewrite bind_Done. simpl take. rewrite execute_with_range_small.
  cbn. eexists. split; [reflexivity|]. unfold poisoned, is_complex in *. simpl. split; [done|]. by destruct (number_space v).
Qed.

(** ** Functions applied to each point *)
Theorem unary_spec rf cf co s sched (v : dvec A) : no_threads_for_nothing co s \/ len v <> 0 ->
  (forall l, reals v l -> exists v', unary rf cf co s sched v = Done v' /\ reals v' (map rf l) /\ same_meta v v' /\ same_rest v v') /\
  (forall c, cplx v c -> exists v', unary rf cf co s sched v = Done v' /\ cplx v' (map cf c) /\ same_meta v v' /\ same_rest v v').
Proof.
  intros Hs. split.
  - intros l [Hc Hv]. unfold unary. rewrite Hc. destruct (vdata_inv _ _ Hv) as (Hn & _).
    destruct (pure_real_operation_spec s sched rf co v l Hv) as (v' & E & D & M & R).
    { destruct Hs as [|Hl]; [by right|left]. intros ->. by apply Hl. }
    exists v'. split_and!; try done. split; [by rewrite (meta_is_complex v v' M)|done].
  - intros c [Hc Hv]. unfold unary. rewrite Hc. destruct (vdata_inv _ _ Hv) as (Hn & _).
    destruct (pure_complex_operation_spec s sched cf co v c Hv) as (v' & E & D & M & R).
    { destruct Hs as [|Hl]; [by right|left]. intros ->. by apply Hl. }
    exists v'. split_and!; try done. split; [by rewrite (meta_is_complex v v' M)|done].
Qed.

Theorem vsqrt_spec r addr s sched (v : dvec A) : reg_ok r -> elem_aligned r addr -> address_ok r addr v ->
  (forall l, reals v l -> exists v', vsqrt r addr s sched v = Done v' /\ reals v' (map fsqrt l) /\ same_meta v v' /\ same_rest v v') /\
  (forall c, cplx v c -> exists v', vsqrt r addr s sched v = Done v' /\ cplx v' (map fcsqrt c) /\ same_meta v v' /\ same_rest v v').
Proof.
  intros Hr Ha Hok. split.
  - intros l Hv. pose proof (address_ok_real r addr v l (proj2 Hv) Hok) as Hf. destruct Hv as [Hc Hv]. unfold vsqrt. rewrite Hc.
    destruct (simd_real_operation_spec r addr s sched (map fsqrt) fsqrt Small v l Hr Ha (nothing_small s) Hv) as [Hx _]; [done|].
    destruct (Hx Hf) as (v' & E & D & M & R). exists v'. split_and!; try done. split; [by rewrite (meta_is_complex v v' M)|done].
  - intros c [Hc Hv]. unfold vsqrt. rewrite Hc.
    destruct (pure_complex_operation_spec s sched fcsqrt Small v c Hv) as (v' & E & D & M & R); [right; apply nothing_small|].
    exists v'. split_and!; try done. split; [by rewrite (meta_is_complex v v' M)|done].
Qed.

Lemma square_block (b : list A) : reg_bin nmul b b = map (fun x => x * x)%num b.
Proof. induction b as [|x b IH]; [done|]. simpl. f_equal. exact IH. Qed.

Theorem vsquare_spec r addr s sched (v : dvec A) : reg_ok r -> elem_aligned r addr -> address_ok r addr v ->
  (forall l, reals v l -> exists v', vsquare r addr s sched v = Done v' /\ reals v' (map (fun x => x * x)%num l) /\ same_meta v v' /\ same_rest v v') /\
  (forall c, cplx v c -> exists v', vsquare r addr s sched v = Done v' /\ cplx v' (map (fun x => cmul x x) c) /\ same_meta v v' /\ same_rest v v').
Proof.
  intros Hr Ha Hok. split.
  - intros l Hv. pose proof (address_ok_real r addr v l (proj2 Hv) Hok) as Hf. destruct Hv as [Hc Hv]. unfold vsquare. rewrite Hc.
    destruct (simd_real_operation_spec r addr s sched (fun x => reg_bin nmul x x) (fun x => x * x)%num Small v l Hr Ha (nothing_small s) Hv) as [Hx _].
    { intros b _. apply square_block. }
    destruct (Hx Hf) as (v' & E & D & M & R). exists v'. split_and!; try done. split; [by rewrite (meta_is_complex v v' M)|done].
  - intros c [Hc Hv]. unfold vsquare. rewrite Hc.
    destruct (pure_complex_operation_spec s sched (fun x => cmul x x) Small v c Hv) as (v' & E & D & M & R); [right; apply nothing_small|].
    exists v'. split_and!; try done. split; [by rewrite (meta_is_complex v v' M)|done].
Qed.

Context `{Rem A}.
Theorem vabs_spec r addr s sched (v : dvec A) l : (forall x, fsqrt (x * x)%num = fabs x) -> reg_ok r -> elem_aligned r addr -> address_ok r addr v ->
  reals v l -> exists v', vabs r addr s sched v = Done v' /\ reals v' (map fabs l) /\ same_meta v v' /\ same_rest v v'.
Proof.
  intros Hlaw Hr Ha Hok Hv. pose proof (address_ok_real r addr v l (proj2 Hv) Hok) as Hf. destruct Hv as [Hc Hv]. unfold vabs. rewrite Hc.
  destruct (simd_real_operation_spec r addr s sched (fun x => map fsqrt (reg_bin nmul x x)) fabs Small v l Hr Ha (nothing_small s) Hv) as [Hx _].
  { intros b _. rewrite square_block, map_map. by apply map_ext. }
  destruct (Hx Hf) as (v' & E & D & M & R). exists v'. split_and!; try done. split; [by rewrite (meta_is_complex v v' M)|done].
Qed.
Theorem abs_on_complex r addr s sched (v : dvec A) : is_complex v = true ->
  exists v', vabs r addr s sched v = Done v' /\ poisoned v'.
Proof. intros Hc. unfold vabs. rewrite Hc. eexists. split; [reflexivity|done]. Qed.
End math.
