(** C61: approximated functions *)
From Verif Require Import Proof_ElemOps Proof_Approx Nums NumsR Model_MatOps.
From Coq Require Import Reals Lra.
Local Open Scope nat_scope.

(** * C61 The approximated functions of the default build are the functions which their names promise *)

(** Each element is replaced by the value of the function, wherever it lies with respect to the registers; logarithms and powers to other bases are computed
    by way of the natural logarithm. *)
Theorem C61_values : forall {A} `{Num A} `{Math A} f r addr s sched (v : dvec A), reg_ok r -> elem_aligned r addr -> address_ok r addr v ->
  (forall l, reals v l -> exists v', vapprox f r addr s sched v = Done v' /\ reals v' (map (by_way_of_ln f) l) /\ same_meta v v' /\ same_rest v v') /\
  (is_complex v = true -> exists v', vapprox f r addr s sched v = Done v' /\ poisoned v').
Proof. intros. split; [intros; by apply vapprox_spec | intros; by apply vapprox_complex]. Qed.
Print Assumptions C61_values.

(** Where the number type knows that its logarithm and its power agree with that, the approximated method has the outcome of the exact method. *)
Theorem C61_as_exact : forall {A} `{Num A} `{Math A} f r addr s sched (v : dvec A) l, reg_ok r -> elem_aligned r addr -> address_ok r addr v ->
  reals v l -> (forall x, x ∈ l -> by_way_of_ln f x = stands_for f x) ->
  exists v', vapprox f r addr s sched v = Done v' /\ reals v' (map (stands_for f) l) /\ same_meta v v' /\ same_rest v v'.
Proof.
  intros A HN HM f r addr s sched v l Hr Ha Hok Hv Hl. destruct (vapprox_spec f r addr s sched v l Hr Ha Hok Hv) as (v' & E & Hv' & Hm & Hs).
  assert (Em : map (by_way_of_ln f) l = map (stands_for f) l) by (apply map_ext_in; intros x Hx; apply Hl; by apply elem_of_list_In).
  exists v'. split; [exact E|]. split; [rewrite <- Em; exact Hv'|]. by split.
Qed.
Print Assumptions C61_as_exact.

(** Numbers without rounding: the power of positive elements with a natural exponent is the repeated product, *)
Theorem C61_powf : forall `{Math R}, (forall x, rmath Ln x = ln x) -> (forall x, rmath Exp x = exp x) ->
  forall n r addr s sched (v : dvec R) l, reg_ok r -> elem_aligned r addr -> address_ok r addr v -> reals v l -> (forall x, x ∈ l -> (0 < x)%R) ->
  exists v', vapprox (Powf_approx (INR n)) r addr s sched v = Done v' /\ reals v' (map (fun x => (x ^ n)%R) l) /\ same_meta v v' /\ same_rest v v'.
Proof.
  intros HM Hln Hexp n r addr s sched v l Hr Ha Hok Hv Hl. destruct (vapprox_spec (Powf_approx (INR n)) r addr s sched v l Hr Ha Hok Hv) as (v' & E & Hv' & Hm & Hs).
  assert (Em : map (by_way_of_ln (Powf_approx (INR n))) l = map (fun x => (x ^ n)%R) l).
  { apply map_ext_in. intros x Hx. cbn [by_way_of_ln]. rewrite Hln, Hexp.
    apply elem_of_list_In in Hx. specialize (Hl x Hx). rewrite <- (Rpower_pow n x Hl). unfold Rpower. f_equal. apply Rmult_comm. }
  exists v'. split; [exact E|]. split; [rewrite <- Em; exact Hv'|]. split; [exact Hm|exact Hs].
Qed.
Print Assumptions C61_powf.
(** and the logarithm of the exponential function is the identity, for every base but 1. *)
Theorem C61_log_of_expf : forall `{Math R}, (forall x, rmath Ln x = ln x) -> (forall x, rmath Exp x = exp x) ->
  forall b r addr s sched sched' (v : dvec R) l, (0 < b)%R -> b <> 1%R -> reg_ok r -> elem_aligned r addr -> address_ok r addr v -> reals v l ->
  exists v1 v2, vapprox (Expf_approx b) r addr s sched v = Done v1 /\ vapprox (Log_approx b) r addr s sched' v1 = Done v2 /\
    reals v2 l /\ same_meta v v2 /\ same_rest v v2.
Proof.
  intros HM Hln Hexp b r addr s sched sched' v l Hb Hb1 Hr Ha Hok Hv.
  destruct (vapprox_spec (Expf_approx b) r addr s sched v l Hr Ha Hok Hv) as (v1 & E1 & Hv1 & Hm1 & Hs1).
  assert (Hok1 : address_ok r addr v1).
  { assert (El : len v1 = len v). { rewrite (Proof_ElemOps.reals_len _ _ (proj2 Hv1)), (Proof_ElemOps.reals_len _ _ (proj2 Hv)). by rewrite map_length. }
    unfold address_ok in *. rewrite El. destruct Hv1 as [-> _]. destruct Hv as [Hc _]. rewrite Hc in Hok. exact Hok. }
  destruct (vapprox_spec (Log_approx b) r addr s sched' v1 _ Hr Ha Hok1 Hv1) as (v2 & E2 & Hv2 & Hm2 & Hs2).
  exists v1, v2. split; [exact E1|]. split; [exact E2|]. split.
  - rewrite map_map in Hv2. rewrite (map_ext _ id) in Hv2; [by rewrite map_id in Hv2|]. intros x. cbn [by_way_of_ln]. rewrite !Hln, Hexp, ln_exp.
    cbn. unfold id. field. intros K. apply Hb1. rewrite <- (exp_ln b Hb), K. apply exp_0.
  - split; [by destruct Hm1 as (?&?&?), Hm2 as (?&?&?); split_and!; congruence|].
    destruct Hs1 as (K1&K2&K3&K4), Hs2 as (L1&L2&L3&L4). split; [congruence|]. split; [congruence|]. split; [congruence|]. rewrite K3 in L4. congruence.
Qed.
Print Assumptions C61_log_of_expf.

Local Instance ex_math_approx : Math Z := {| rmath := fun f x => match f with Ln => Z.log2 x | Exp => 2 ^ x | Sin => x + 1 | _ => x end%Z; cmath := fun _ x => x;
  rpowf := Z.pow; cpowf := fun x _ => x; rlog := fun x b => (Z.log2 x / Z.log2 b)%Z; clog := fun x _ => x; cexpf := fun x _ => x |}.
(** Powers of two have the logarithm to the base of two among the integers. The first element and the last two don't fill a register. *)
Example C61_example : let v : dvec Z := DVec (Storage KVec 6 [1; 2; 4; 8; 16; 7]%Z) 1%Z DTime NReal 5 in
  reg_ok f64x2 /\ elem_aligned f64x2 8 /\ address_ok f64x2 8 v /\ reals v [1; 2; 4; 8; 16]%Z /\
  (forall x, x ∈ [1; 2; 4; 8; 16]%Z -> by_way_of_ln (Powf_approx 3%Z) x = stands_for (Powf_approx 3%Z) x) /\
  exists v', vapprox (Powf_approx 3%Z) f64x2 8 (with_thresholds 2 1 1 1 1) [1] v = Done v' /\ reals v' [1; 8; 64; 512; 4096]%Z /\ elems v' = [1; 8; 64; 512; 4096; 7]%Z.
Proof.
  intros v. split; [vm_compute; auto with lia|]. split; [done|]. split; [left; by vm_compute|]. split; [done|]. split.
  - intros x Hx. repeat (apply elem_of_cons in Hx as [-> | Hx]; [by vm_compute|]). by apply elem_of_nil in Hx.
  - eexists. split; [by vm_compute|]. by vm_compute.
Qed.
Local Instance ex_math_R : Math R := {| rmath := fun f => match f with Ln => ln | Exp => exp | _ => sin end; cmath := fun _ x => x;
  rpowf := Rpower; cpowf := fun x _ => x; rlog := fun x b => (ln x / ln b)%R; clog := fun x _ => x; cexpf := fun x _ => x |}.
Example C61_example_R : (forall x : R, rmath Ln x = ln x) /\ (forall x : R, rmath Exp x = exp x) /\
  reals (DVec (Storage KVec 2 [2; 3]%R) 1%R DTime NReal 2) [2; 3]%R /\ (forall x, x ∈ [2; 3]%R -> (0 < x)%R) /\ (0 < 10)%R /\ 10%R <> 1%R.
Proof.
  split; [reflexivity|]. split; [reflexivity|]. split; [split; reflexivity|]. split; [|lra].
  intros x Hx. apply elem_of_cons in Hx as [-> | Hx]; [lra|]. apply elem_of_cons in Hx as [-> | Hx]; [lra|]. by apply elem_of_nil in Hx.
Qed.
