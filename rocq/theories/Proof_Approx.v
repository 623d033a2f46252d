(** The approximated functions *)
From Verif Require Import Proof_Elem Proof_ElemOps Proof_ComplexMath.
From Verif Require Export Spec_Approx.
Local Open Scope nat_scope.
Section approx.
Context {A : Type} `{Num A} `{Math A}.
Lemma reg_bin_splat_l (op : A -> A -> A) r y b : length b = reg_len r -> reg_bin op (splat r y) b = map (op y) b.
Proof. unfold reg_bin, splat. intros <-. induction b as [|x b IH]; [done|]. cbn [length replicate zip_with map]. by rewrite IH. Qed.
Theorem vapprox_spec f r addr s sched (v : dvec A) l : reg_ok r -> elem_aligned r addr -> address_ok r addr v -> reals v l ->
  exists v', vapprox f r addr s sched v = Done v' /\ reals v' (map (by_way_of_ln f) l) /\ same_meta v v' /\ same_rest v v'.
Proof.
  intros Hr Ha Hok Hv. pose proof (address_ok_real r addr v l (proj2 Hv) Hok) as Hf. destruct Hv as [Hc Hv]. unfold vapprox. rewrite Hc.
  assert (K : forall simd_op scalar_op, (forall b : list A, length b = reg_len r -> simd_op b = map scalar_op b) -> (forall x, scalar_op x = by_way_of_ln f x) ->
    exists v', simd_real_operation r addr s sched simd_op scalar_op Small v = Done v' /\ reals v' (map (by_way_of_ln f) l) /\ same_meta v v' /\ same_rest v v').
  { intros so sc H1 H2. destruct (simd_real_operation_spec r addr s sched so sc Small v l Hr Ha (nothing_small s) Hv H1) as [Hx _].
    destruct (Hx Hf) as (v' & E & D & M & R). exists v'. split_and!; try done. split; [by rewrite (meta_is_complex v v' M)|].
    by rewrite <- (map_ext _ _ H2). }
  destruct f; cbv zeta; apply K; try done; intros b Hb; unfold lanes.
  - rewrite reg_bin_splat by (by rewrite map_length). by rewrite map_map.
  - rewrite reg_bin_splat_l by done. by rewrite map_map.
  - rewrite reg_bin_splat by (by rewrite map_length). by rewrite !map_map.
Qed.
Lemma vapprox_complex f r addr s sched (v : dvec A) : is_complex v = true -> exists v', vapprox f r addr s sched v = Done v' /\ poisoned v'.
Proof. intros Hc. unfold vapprox. rewrite Hc. eexists. split; [reflexivity|done]. Qed.
End approx.
