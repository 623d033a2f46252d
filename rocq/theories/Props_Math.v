(** C47: the functions with a name; see Props_Complex.v for the rest of C47. *)
From Verif Require Import Model_Math Proof_ComplexMath Nums.
Local Open Scope nat_scope.

(** [sin], [cos], ..., [ln], [exp]: the function of the number type for real vectors, the function of the complex numbers for complex vectors *)
Theorem C47_named : forall {A} `{Num A} `{Math A} (f : elementary) s sched (v : dvec A), no_threads_for_nothing Medium s \/ len v <> 0 ->
  (forall l, reals v l -> exists v', vmath f s sched v = Done v' /\ reals v' (map (rmath f) l) /\ same_meta v v' /\ same_rest v v') /\
  (forall c, cplx v c -> exists v', vmath f s sched v = Done v' /\ cplx v' (map (cmath f) c) /\ same_meta v v' /\ same_rest v v').
Proof. intros. by apply unary_spec. Qed.
Print Assumptions C47_named.
Theorem C47_powf : forall {A} `{Num A} `{Math A} x s sched (v : dvec A), no_threads_for_nothing Medium s \/ len v <> 0 ->
  (forall l, reals v l -> exists v', vpowf x s sched v = Done v' /\ reals v' (map (fun b => rpowf b x) l) /\ same_meta v v' /\ same_rest v v') /\
  (forall c, cplx v c -> exists v', vpowf x s sched v = Done v' /\ cplx v' (map (fun b => cpowf b x) c) /\ same_meta v v' /\ same_rest v v').
Proof. intros. by apply unary_spec. Qed.
Print Assumptions C47_powf.
(** The root of degree d is the power with the exponent 1 / d. *)
Theorem C47_root : forall {A} `{Num A} `{Math A} d s sched (v : dvec A), no_threads_for_nothing Medium s \/ len v <> 0 ->
  (forall l, reals v l -> exists v', vroot d s sched v = Done v' /\ reals v' (map (fun b => rpowf b (n1 / d)%num) l) /\ same_meta v v' /\ same_rest v v') /\
  (forall c, cplx v c -> exists v', vroot d s sched v = Done v' /\ cplx v' (map (fun b => cpowf b (n1 / d)%num) c) /\ same_meta v v' /\ same_rest v v').
Proof. intros. by apply unary_spec. Qed.
Print Assumptions C47_root.
Theorem C47_log : forall {A} `{Num A} `{Math A} b s sched (v : dvec A), no_threads_for_nothing Medium s \/ len v <> 0 ->
  (forall l, reals v l -> exists v', vlog b s sched v = Done v' /\ reals v' (map (fun x => rlog x b) l) /\ same_meta v v' /\ same_rest v v') /\
  (forall c, cplx v c -> exists v', vlog b s sched v = Done v' /\ cplx v' (map (fun x => clog x b) c) /\ same_meta v v' /\ same_rest v v').
Proof. intros. by apply unary_spec. Qed.
Print Assumptions C47_log.
(** The exponential function with base b: the base to the power of the element *)
Theorem C47_expf : forall {A} `{Num A} `{Math A} b s sched (v : dvec A), no_threads_for_nothing Medium s \/ len v <> 0 ->
  (forall l, reals v l -> exists v', vexpf b s sched v = Done v' /\ reals v' (map (fun x => rpowf b x) l) /\ same_meta v v' /\ same_rest v v') /\
  (forall c, cplx v c -> exists v', vexpf b s sched v = Done v' /\ cplx v' (map (fun x => cexpf x b) c) /\ same_meta v v' /\ same_rest v v').
Proof. intros. by apply unary_spec. Qed.
Print Assumptions C47_expf.

(** The functions of this example are not the usual ones; [rpowf] is. *)
Local Instance ex_math : Math Z := {| rmath := fun f x => match f with Sin => x + 1 | _ => 0 end%Z; cmath := fun _ x => x; rpowf := Z.pow;
  cpowf := fun x _ => x; rlog := fun x _ => x; clog := fun x _ => x; cexpf := fun x _ => x |}.
Example C47_named_example : let v : dvec Z := DVec (Storage KVec 4 [2; 3; 4; 9]%Z) 1%Z DTime NReal 3 in
  len v <> 0 /\ reals v [2; 3; 4]%Z /\
  (exists v', vmath Sin (with_thresholds 2 1 1 1 1) [1] v = Done v' /\ reals v' [3; 4; 5]%Z /\ elems v' = [3; 4; 5; 9]%Z) /\
  (exists v', vpowf 2%Z (with_thresholds 2 1 1 1 1) [1] v = Done v' /\ reals v' [4; 9; 16]%Z) /\
  (exists v', vexpf 2%Z (with_thresholds 2 1 1 1 1) [1] v = Done v' /\ reals v' [4; 8; 16]%Z).
Proof.
  intros v. split; [done|]. split; [done|]. split; [|split]; eexists; (split; [by vm_compute|]); [by split| by split | by split].
Qed.
