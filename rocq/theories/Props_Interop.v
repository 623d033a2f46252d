(** C40: the C interface *)
From Verif Require Import Proof_Interop Nums NumsFlt NumsTrig.
From Verif Require Import Model_MatOps.
Local Open Scope nat_scope.

(** Every function but [atan64] hands back the vector and the buffer which the method of the same name produces, with the code which tells its outcome. *)
Theorem C40_vector : forall {A} `{Num A} `{Flt A} `{Rem A} `{Trig A} `{Math A} `{F : Fft A} `{RA : Rounding A} `{IsNan A}
    e fits (c : foreign A) (x y : ivec A) code, c <> F_inplace (Elementary Atan) -> in_range c ->
  foreign_call e fits c x = Done (y, code) <->
  exists v b res, named e fits c (i_buf x) (i_vec x) = Done (v, b, res) /\ y = IVec v b /\ tells is_erroneous v res code.
Proof. exact @foreign_call_spec. Qed.
Print Assumptions C40_vector.
(** The code is 0 if and only if the operation succeeded and the vector isn't marked as invalid. *)
Theorem C40_zero_is_success : forall {A} (erroneous : dvec A -> bool) (v : dvec A) res code, tells erroneous v res code ->
  code = 0%Z <-> res = Ok tt /\ erroneous v = false.
Proof.
  intros A er v res code Ht. destruct res as [[]|e]; cbn [tells] in Ht.
  - destruct (er v) eqn:E; subst code; split; try done. by intros [_ ?].
  - split; [|by intros [? _]]. intros ->. destruct Ht as [(k & _ & ?)|[[_ ?]|[_ ?]]]; lia.
Qed.
Print Assumptions C40_zero_is_success.
(** Different errors have different codes, a given outcome has one code only. *)
Theorem C40_codes_distinct : forall {A} (erroneous : dvec A -> bool) (v w : dvec A) e e' code,
  tells erroneous v (Err e) code -> tells erroneous w (Err e') code -> e = e'.
Proof. intros A er v w e e' code. exact (tells_injective er v e e' code). Qed.
Print Assumptions C40_codes_distinct.
Theorem C40_codes_unique : forall {A} (erroneous : dvec A -> bool) (v : dvec A) res code code',
  tells erroneous v res code -> tells erroneous v res code' -> code = code'.
Proof. intros A er v res c c'. exact (tells_unique er v res c c'). Qed.
Print Assumptions C40_codes_unique.
(** Two errors have codes which the documentation doesn't list. *)
Theorem C40_documented_refuted : exists e, forall A (erroneous : dvec A -> bool) (v : dvec A) code, tells erroneous v (Err e) code -> (code > 12)%Z.
Proof.
  exists InputMustHaveAnEvenLength. intros A er v code [(k & E & _)|[[_ ->]|[? _]]]; [|lia|done].
  do 12 (destruct k as [|k]; [discriminate E|]). discriminate E.
Qed.
Print Assumptions C40_documented_refuted.
(** [atan64] computes the tangent. *)
Theorem C40_atan : forall {A} `{Num A} `{Flt A} `{Rem A} `{Trig A} `{Math A} `{F : Fft A} `{RA : Rounding A} `{IsNan A} e fits (x : ivec A),
  foreign_call e fits (F_inplace (Elementary Atan)) x = foreign_call e fits (F_inplace (Elementary Tan)) x.
Proof. done. Qed.
Print Assumptions C40_atan.

Definition on_vec {A} `{Num A} (ns : nspace) (d : dmarker) (l : list A) : ivec A :=
  IVec (DVec (Storage KVec (length l) l) n1 d ns (length l)) (SingleBuffer []).
Definition alone : env := Env f64x2 (fun _ => 48) (with_thresholds 1 2 3 2 3) (fun _ _ => []).
Local Instance Zmath_if : Math Z := {| rmath := fun f x => match f with Tan => x * 10 | Atan => x + 1 | _ => x end%Z; cmath := fun _ x => x; rpowf := Z.pow;
  cpowf := fun x _ => x; rlog := fun x _ => x; clog := fun x _ => x; cexpf := fun x _ => x |}.
Local Instance Zfft_if : Fft Z := {| fft_forward := fun c => c; fft_inverse := fun c => c; fft_rest := fun c => c; fft_inplace_scratch_len := fun _ => 0;
  fft_outofplace_scratch_len := fun _ => 0 |}.
Local Instance Zrounding_if : Rounding Z := {| fround := fun x => x; ffloor := fun x => x; fceil := fun x => x; to_usize := fun x => Some (Z.to_nat x);
  to_isize := fun x => Some x; as_usize := Z.to_nat |}.
Local Instance Znan_if : IsNan Z := fun x => (x =? nnan)%Z.
Theorem C40_atan_refuted : exists (x y : ivec Z), foreign_call alone (fun _ => true) (F_inplace (Elementary Atan)) x = Done (y, 0%Z) /\
  ~ exists v b, named alone (fun _ => true) (F_inplace (Elementary Atan)) (i_buf x) (i_vec x) = Done (v, b, Ok tt) /\ y = IVec v b.
Proof.
  exists (on_vec (NDyn false) (DDyn Time) [1; 2; 3]%Z). eexists. split; [vm_compute; reflexivity|]. intros (v & b & E & Ey). vm_compute in E.
  injection E as <- <-. discriminate Ey.
Qed.
Print Assumptions C40_atan_refuted.
(** Calls which succeed, fail, and mark the vector as invalid *)
Example C40_vector_example : let x := on_vec (NDyn false) (DDyn Time) [1; 2; 3; 4]%Z in
  (exists y, foreign_call alone (fun _ => true) (F_inplace (Scale 3%Z)) x = Done (y, 0%Z) /\ reals (i_vec y) [3; 6; 9; 12]%Z) /\
  foreign_call alone (fun _ => true) (F_binary Sub (on_vec (NDyn false) (DDyn Time) [1; 2]%Z)) x = Done (x, 1%Z) /\
  (exists y, foreign_call alone (fun _ => true) (F_inplace Conj) x = Done (y, (-1)%Z) /\ poisoned (i_vec y)) /\
  (exists y, foreign_call alone (fun _ => true) (F_zero_pad 6 1) x = Done (y, 0%Z) /\ reals (i_vec y) [0; 1; 2; 3; 4; 0]%Z).
Proof.
  intros x. split; [|split; [|split]].
  - eexists. split; [vm_compute; reflexivity|]. done.
  - vm_compute. reflexivity.
  - eexists. split; [vm_compute; reflexivity|]. done.
  - eexists. split; [vm_compute; reflexivity|]. done.
Qed.

(** ** Numbers *)
(** The result of a dot product, or 0 with the code of the error *)
Theorem C40_dot_products : forall {A} `{Num A} `{IsNan A} e op (x o : ivec A) r code,
  foreign_dot e op x o = Done (r, code) <->
  exists res, vec_dot_op e op 0 (i_vec x) (i_vec o) = Done res /\ r = match res with Ok y => y | Err _ => n0 end /\
    tells is_erroneous (i_vec x) (match res with Ok _ => Ok tt | Err err => Err err end) code.
Proof. intros. exact (convert_scalar_spec (fun v => vec_dot_op e op 0 v (i_vec o)) n0 x r code). Qed.
Print Assumptions C40_dot_products.
Theorem C40_complex_dot_products : forall {A} `{Num A} `{IsNan A} e op (x o : ivec A) r code,
  foreign_complex_dot e op x o = Done (r, code) <->
  exists res, vec_complex_dot e op (i_vec x) (i_vec o) = Done res /\ r = match res with Ok y => y | Err _ => (n0, n0) end /\
    tells is_erroneous (i_vec x) (match res with Ok _ => Ok tt | Err err => Err err end) code.
Proof. intros. exact (convert_scalar_spec (fun v => vec_complex_dot e op v (i_vec o)) (n0, n0) x r code). Qed.
Print Assumptions C40_complex_dot_products.
Example C40_dot_example : let x := on_vec (NDyn false) (DDyn Time) [1; 2; 3; 4]%Z in
  foreign_dot alone Dot_product x x = Done (30, 0)%Z /\ foreign_complex_dot alone Dot_product x x = Done ((0, 0), 3)%Z.
Proof. vm_compute. done. Qed.
(** The functions without a vector as result say 9 when they succeed, which is also the code of an error. *)
Theorem C40_void : forall res, (convert_void res = 9%Z <-> res = Ok tt \/ res = Err InputMustHaveAnOddLength) /\ convert_void res <> 0%Z.
Proof. intros [[]|[]]; cbn; (split; [split|]; [try (intros; first [by left | by right | discriminate])|intros [?|?]; try discriminate; try done|discriminate]). Qed.
Print Assumptions C40_void.
Theorem C40_void_refuted : exists res e code, convert_void res = code /\ res = Ok tt /\ (forall A (v : dvec A), tells (fun _ => false) v (Err e) code) /\ code <> 0%Z.
Proof. exists (Ok tt), InputMustHaveAnOddLength, 9%Z. split; [done|]. split; [done|]. split; [|done]. intros A v. left. by exists 8. Qed.
Print Assumptions C40_void_refuted.
Example C40_void_example : exists dst, foreign_getter (A := Z) alone Get_imag (on_vec (NDyn true) (DDyn Time) [1; 2; 3; 4]%Z) (on_vec (NDyn false) (DDyn Time) [0; 0; 0; 0]%Z) =
  Done (dst, 9%Z) /\ reals (i_vec dst) [2; 4]%Z.
Proof. eexists. split; [vm_compute; reflexivity|]. done. Qed.

(** ** Creating and changing vectors *)
Theorem C40_new : forall {A} `{Num A} c d (init : A) n delta0, (c = 0%Z \/ Nat.even n = true) -> exists x, new_vector c d init n delta0 = Done x /\
  vdata (i_vec x) = Done (replicate n init) /\ (is_complex (i_vec x) = true <-> c <> 0%Z) /\ vdomain (i_vec x) = (if (d =? 0)%Z then Time else Frequency) /\
  delta (i_vec x) = delta0.
Proof.
  intros A HN c d init n dt Hc. unfold new_vector, construct. cbn [s_kind s_len s_elems]. rewrite bind_Done. eexists. split; [reflexivity|].
  assert (E : (if Nat.odd (length (replicate n init)) && negb (c =? 0)%Z then 0 else length (replicate n init)) = n).
  { rewrite replicate_length. destruct (Z.eqb_spec c 0) as [->|Hn]; [by rewrite andb_false_r|]. destruct Hc as [Hc|Hc]; [done|].
    rewrite <- Nat.negb_even, Hc. done. }
  split; [|split; [|split]]; [| |done|done].
  - apply (vdata_intro _ _ []); [by rewrite app_nil_r|]. rewrite replicate_length. exact E.
  - cbn. destruct (Z.eqb_spec c 0); cbn; split; done.
Qed.
Print Assumptions C40_new.
(** An odd length for a complex vector gives an empty vector, which isn't marked as invalid unless the caller's delta does so. *)
Theorem C40_new_refuted : exists x : ivec Z, new_vector 1 0 7%Z 3 1%Z = Done x /\ len (i_vec x) = 0 /\ is_erroneous (i_vec x) = false.
Proof. eexists. split; [vm_compute; reflexivity|]. done. Qed.
Print Assumptions C40_new_refuted.
Theorem C40_overwrite : forall {A} (x : ivec A) l d, vdata (i_vec x) = Done l -> length d < length l ->
  exists y, overwrite_data x d = Done (y, 0%Z) /\ i_buf y = i_buf x /\
     vdata (i_vec y) = Done (d ++ drop (length d) l) /\ same_meta (i_vec x) (i_vec y) /\ same_rest (i_vec x) (i_vec y).
Proof. intros A x l d Hl Hd. by apply overwrite_spec. Qed.
Print Assumptions C40_overwrite.
(** As many elements as the vector has are refused. *)
Theorem C40_overwrite_refuted : forall {A} (x : ivec A) l d, vdata (i_vec x) = Done l -> length d = length l -> overwrite_data x d = Done (x, 7%Z).
Proof. intros A x l d Hl Hd. apply (overwrite_spec x l d Hl). lia. Qed.
Print Assumptions C40_overwrite_refuted.
Example C40_overwrite_example : let x := on_vec (NDyn false) (DDyn Time) [1; 2; 3; 4]%Z in
  (exists y, overwrite_data x [8; 9]%Z = Done (y, 0%Z) /\ reals (i_vec y) [8; 9; 3; 4]%Z) /\ overwrite_data x [5; 6; 7; 8]%Z = Done (x, 7%Z).
Proof. split; [|done]. eexists. split; [vm_compute; reflexivity|]. done. Qed.
