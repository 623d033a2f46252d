(** Property theorems: vectors, storages, constructors, rededication (C02, C03, C04, C44). *)
From Verif Require Import Nums Spec Proof_Vec Proof_ReorgDiff Proof_Conv.

(** ** C02: resize keeps the prefix and fails atomically *)

(** For every storage kind, vector and requested length: the two errors occur exactly when documented, an error leaves the vector
    as it was, and success sets the length, keeps the whole storage content (hence the first [min (old length) n] elements) and
    appends zeros if the storage had to grow. *)
Theorem C02_resize : forall {A} (zero : A) (v v' : dvec A) n r,
  wf_storage (data v) -> resize zero v n = (v', r) ->
  (r = Err InputMustHaveAnEvenLength <-> is_complex v = true /\ Nat.odd n = true) /\
  (r = Err TypeCanNotResize <-> ~ (is_complex v = true /\ Nat.odd n = true) /\ ~ can_hold (data v) n) /\
  (r <> Ok tt -> v' = v) /\
  (r = Ok tt ->
     len v' = n /\ same_meta v v' /\ n <= alloc_len v' /\ alloc_len v <= alloc_len v' /\
     s_kind (data v') = s_kind (data v) /\
     elems v' = elems v ++ replicate (n - alloc_len v) zero) /\
  (r = Ok tt \/ r = Err InputMustHaveAnEvenLength \/ r = Err TypeCanNotResize).
Proof. exact @resize_complete. Qed.
Print Assumptions C02_resize.

(** The readable data: a successful resize of a readable vector keeps the common prefix. *)
Theorem C02_resize_prefix : forall {A} (zero : A) (v v' : dvec A) n l,
  wf_storage (data v) -> vdata v = Done l -> resize zero v n = (v', Ok tt) ->
  exists l', vdata v' = Done l' /\ length l' = n /\ take (min (length l) n) l' = take (min (length l) n) l.
Proof. exact @resize_prefix. Qed.
Print Assumptions C02_resize_prefix.

(** A [Vec] can always be resized, apart from odd complex lengths; [resize_b] is then the same as [resize]. *)
Theorem C02_resize_vec : forall {A} (zero : A) (v : dvec A) n,
  s_kind (data v) = KVec -> (is_complex v = true -> Nat.odd n = false) -> exists v', resize zero v n = (v', Ok tt).
Proof. exact @resize_kvec. Qed.
Print Assumptions C02_resize_vec.
Theorem C02_resize_b_vec : forall {A} (zero : A) b (v : dvec A) n,
  wf v -> s_kind (data v) = KVec ->
  resize_b zero b v n = let '(v', r) := resize zero v n in Done (v', b, r).
Proof. exact @resize_b_vec. Qed.
Print Assumptions C02_resize_b_vec.

Example C02_example : (* an array vector of capacity 6 grows to 6 and then refuses 7 *)
  let v := DVec (Storage KArrayVec 6 [1; 2; 3; 4]%Z) 1%Z DTime NReal 4 in
  wf_storage (data v) /\
  resize 0%Z v 6 = (DVec (Storage KArrayVec 6 [1; 2; 3; 4; 0; 0]%Z) 1%Z DTime NReal 6, Ok tt) /\
  resize 0%Z v 7 = (v, Err TypeCanNotResize).
Proof. vm_compute. split_and!; done || lia. Qed.

(** A shrunk vector which grows again shows the old elements, not zeros. *)
Theorem C02_regrow_shows_old_data : forall {A} (zero : A) (v : dvec A) m n,
  wf v -> m <= n <= alloc_len v -> (is_complex v = true -> Nat.even m = true /\ Nat.even n = true) ->
  exists v1 v2, resize zero v m = (v1, Ok tt) /\ resize zero v1 n = (v2, Ok tt) /\ vdata v1 = Done (take m (elems v)) /\ vdata v2 = Done (take n (elems v)).
Proof. exact @regrow. Qed.
Print Assumptions C02_regrow_shows_old_data.
Example C02_regrow_example : exists (v : dvec Z),
  let v1 := fst (resize 0%Z v 1) in let v2 := fst (resize 0%Z v1 3) in
  vdata v1 = Done [7%Z] /\ vdata v2 = Done [7; 8; 9]%Z.
Proof. exists (DVec (Storage KVec 3 [7; 8; 9]%Z) 1%Z DTime NReal 3). vm_compute. done. Qed.

(** ** C03: odd complex input gives an empty vector *)

(** All constructors except [to_gen_dsp_vec] on [&[T]] and the complex [From] impls ([checked_ctor]). The readable data is
    always a prefix of the input. *)
Theorem C03_complex_ctor : forall {A} `{Num A} (c : ctor) (s : storage A),
  wf_storage s ->
  exists v, construct c s = Done v /\ delta v = n1 /\ len v <= alloc_len v /\
    vdata v = Done (take (len v) (s_elems s)) /\
    (is_complex v = false -> len v = s_len s) /\
    (checked_ctor c (s_kind s) = true -> is_complex v = true -> len v = if Nat.even (s_len s) then s_len s else 0) /\
    (checked_ctor c (s_kind s) = false -> len v = s_len s).
Proof. exact @construct_spec. Qed.
Print Assumptions C03_complex_ctor.

(** The two exceptions violate the property: a complex vector of odd length. *)
Theorem C03_gen_slice_refuted : forall {A} `{Num A} d (s : storage A), wf_storage s -> s_kind s = KSlice ->
  exists v, construct (ToGen true d) s = Done v /\ is_complex v = true /\ len v = s_len s /\ (Nat.odd (s_len s) = true -> ~ wf v).
Proof.
  intros A ? d s Hs Hk. unfold construct. rewrite Hk. eexists. split; [reflexivity|]. split_and!; [done|done|]. intros Ho [_ Hw].
  specialize (Hw eq_refl). cbn in Hw. rewrite <- Nat.negb_odd, Ho in Hw. done.
Qed.
Print Assumptions C03_gen_slice_refuted.
Theorem C03_from_refuted : forall {A} `{Num A} c (s : storage A), wf_storage s -> c = FromComplexTime \/ c = FromComplexFreq ->
  exists v, construct c s = Done v /\ is_complex v = true /\ len v = s_len s /\ (Nat.odd (s_len s) = true -> ~ wf v).
Proof.
  intros A ? c s Hs Hc. destruct (construct_spec c s Hs) as (v & E & _ & _ & _ & _ & _ & Hl). exists v.
  assert (Hcv : is_complex v = true).
  { destruct Hc as [-> | ->]; cbn in E; (destruct (try_resize n0 s (s_alloc_len s)) as [s' [?|?]]; [by injection E as <-|done]). }
  split_and!; [done|done|apply Hl; by destruct Hc as [-> | ->]|]. intros Ho [_ Hw]. specialize (Hw Hcv). rewrite Hl in Hw by (by destruct Hc as [-> | ->]).
  rewrite <- Nat.negb_odd, Ho in Hw. done.
Qed.
Print Assumptions C03_from_refuted.

Example C03_refuted_example : exists v w,
  construct (ToGen true Time) (Storage KSlice 3 [1; 2; 3]%Z) = Done v /\ len v = 3 /\
  construct FromComplexTime (Storage KVec 3 [1; 2; 3]%Z) = Done w /\ len w = 3 /\ wf_storage (Storage KVec 3 [1; 2; 3]%Z).
Proof. eexists _, _. vm_compute. split_and!; done || lia. Qed.
Example C03_example :
  construct ToComplexTime (Storage KBox 3 [1; 2; 3]%Z) = Done (DVec (Storage KBox 3 [1; 2; 3]%Z) 1%Z DTime NComplex 0) /\
  construct ToComplexTime (Storage KBox 4 [1; 2; 3; 4]%Z) = Done (DVec (Storage KBox 4 [1; 2; 3; 4]%Z) 1%Z DTime NComplex 4) /\
  checked_ctor ToComplexTime KBox = true.
Proof. vm_compute. done. Qed.

(** Interleaving two real vectors. *)
Theorem C03_interleave : forall {A} `{Num A} d (re im : list A),
  (length re <> length im -> interleave_to_complex d re im = Err InputMustHaveTheSameSize) /\
  (length re = length im -> exists v, interleave_to_complex d re im = Ok v /\ cplx v (zip re im) /\ wf v /\ domain v = d).
Proof. exact @interleave_spec. Qed.
Print Assumptions C03_interleave.

(** Every constructor gives the number space and the domain its name says ([declared_meta] in Spec). *)
Theorem C03_ctor_meta : forall {A} `{Num A} (c : ctor) (s : storage A) v,
  construct c s = Done v -> (number_space v, domain v) = declared_meta c /\ delta v = n1.
Proof. exact @construct_meta. Qed.
Print Assumptions C03_ctor_meta.

(** ** C04: rededicate empties the vector *)

(** What the code does: storage, delta and allocation stay, the type is the requested one, but the vector is emptied only when
    both the number space and the domain change. *)
Theorem C04_rededicate : forall {A} (zero : A) t (v : dvec A),
  let r := rededicate_from zero t v in
  data r = data v /\ delta r = delta v /\
  is_complex r = match t with VRealTime | VRealFreq => false | VComplexTime | VComplexFreq => true | VGen => is_complex v end /\
  vdomain r = match t with VRealTime | VComplexTime => Time | VRealFreq | VComplexFreq => Frequency | VGen => vdomain v end /\
  len r = if negb (Bool.eqb (is_complex r) (is_complex v)) && negb (ddomain_eqb (vdomain r) (vdomain v)) then 0 else len v.
Proof. exact @rededicate_spec. Qed.
Print Assumptions C04_rededicate.

(** Real time data becomes readable as complex time data, even with an odd length (half a point). *)
Theorem C04_rededicate_refuted : forall {A} (zero : A) t (v : dvec A), is_complex v = false ->
  (t = VComplexTime /\ vdomain v = Time \/ t = VComplexFreq /\ vdomain v = Frequency) ->
  let r := rededicate_from zero t v in
  is_complex r = true /\ len r = len v /\ vdata r = vdata v /\ (Nat.odd (len v) = true -> ~ wf r).
Proof.
  intros A zero t v Hc Ht r. destruct (rededicate_spec zero t v) as (Hd & _ & Hcr & Hdr & Hl). fold r in Hd, Hcr, Hdr, Hl.
  assert (Hcr' : is_complex r = true) by (rewrite Hcr; by destruct Ht as [[-> _]|[-> _]]).
  assert (Hl' : len r = len v). { rewrite Hl, Hdr. destruct Ht as [[-> ->]|[-> ->]]; by rewrite andb_false_r. }
  split_and!; [done|done| |].
  - clear -Hd Hl'. unfold vdata, elems, len in *. by rewrite Hd, Hl'.
  - intros Ho [_ Hw]. specialize (Hw Hcr'). rewrite Hl', <- Nat.negb_odd, Ho in Hw. done.
Qed.
Print Assumptions C04_rededicate_refuted.

Example C04_refuted_example : let v := DVec (Storage KVec 3 [7; 8; 9]%Z) 1%Z DTime NReal 3 in
  wf v /\ is_complex v = false /\ vdomain v = Time /\ len (rededicate_from 0%Z VComplexTime v) = 3.
Proof. vm_compute. split_and!; done || lia. Qed.
Example C04_example : (* both change: the vector is emptied *)
  rededicate_from 0%Z VComplexFreq (DVec (Storage KVec 3 [7; 8; 9]%Z) 1%Z DTime NReal 3)
  = DVec (Storage KVec 3 [7; 8; 9]%Z) 1%Z DFreq NComplex 0.
Proof. reflexivity. Qed.

(** ** C44: storage conversion round-trips *)

Theorem C44_real_roundtrip : forall {A} `{Num A} (c : ctor) (cap : nat) (l : list A) v,
  c = ToRealTime \/ c = ToRealFreq \/ c = FromRealTime \/ c = FromRealFreq ->
  length l <= cap ->
  construct c (Storage KVec cap l) = Done v ->
  reals v l /\ into_vec_real v = l /\ snd (getf v) = length l /\ take (length l) (s_elems (fst (getf v))) = l.
Proof. exact @real_roundtrip. Qed.
Print Assumptions C44_real_roundtrip.

(** Complex [Vec]s: the vector has the right points, but converting back gives one point per unit of *capacity*. *)
Theorem C44_complex_roundtrip : forall {A} `{Num A} d cap (l : list (A * A)),
  length l <= cap -> 1 <= cap ->
  exists v, construct_complex_vec d cap l = Done v /\ cplx v l /\
    into_vec_complex v = Done (l ++ replicate (cap - length l) (n0, n0)) /\
    get_complex_vec v = Done (l ++ replicate (cap - length l) (n0, n0), length l).
Proof. exact @complex_roundtrip. Qed.
Print Assumptions C44_complex_roundtrip.

(** Every vector with spare capacity comes back longer, with zeros at its end, *)
Theorem C44_complex_spare_capacity_refuted : forall {A} `{Num A} d cap (l : list (A * A)), length l < cap ->
  exists v l', construct_complex_vec d cap l = Done v /\ into_vec_complex v = Done l' /\ length l' = cap /\ l' <> l.
Proof.
  intros A ? d cap l Hl. destruct (complex_roundtrip d cap l ltac:(lia) ltac:(lia)) as (v & E & _ & E' & _). exists v. eexists.
  assert (Hn : length (l ++ replicate (cap - length l) ((n0, n0) : A * A)) = cap) by (rewrite app_length, replicate_length; lia).
  split_and!; [exact E|exact E'|exact Hn|]. intros Hc. rewrite Hc in Hn. lia.
Qed.
Print Assumptions C44_complex_spare_capacity_refuted.
(** and the only input which is not accepted is the empty vector without any capacity. *)
Theorem C44_complex_empty_refuted : forall {A} `{Num A} d cap (l : list (A * A)), length l <= cap ->
  construct_complex_vec d cap l = Panicked <-> cap = 0.
Proof.
  intros A ? d cap l Hl. split.
  - intros E. destruct cap as [|cap]; [done|]. destruct (complex_roundtrip d (S cap) l Hl ltac:(lia)) as (v & E' & _). congruence.
  - intros ->. destruct l; [done|cbn [length] in Hl; lia].
Qed.
Print Assumptions C44_complex_empty_refuted.

Theorem C44_slice_roundtrip : forall {A} `{Num A} k d (l : list (A * A)),
  let v := construct_complex_slice k d l in
  cplx v l /\ get_complex_slice v = Done (l, length l).
Proof. exact @slice_roundtrip. Qed.
Print Assumptions C44_slice_roundtrip.

Example C44_example : exists v, construct ToRealTime (Storage KVec 5 [1; 2; 3]%Z) = Done v /\ into_vec_real v = [1; 2; 3]%Z
  /\ alloc_len v = 5.
Proof. eexists. vm_compute. done. Qed.
