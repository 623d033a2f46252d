(** Proofs about the C interface *)
From Verif Require Export Spec_Interop Proof_MatOps.
Local Open Scope nat_scope.

Lemma translate_error_tells {A} (er : dvec A -> bool) v e : tells er v (Err e) (translate_error e).
Proof.
  destruct e; cbn [tells translate_error]; [..| right; left; done | right; right; done]; left;
  [exists 0|exists 1|exists 2|exists 3|exists 4|exists 5|exists 6|exists 7|exists 8|exists 9|exists 10|exists 11]; done.
Qed.
Lemma documented_distinct k k' e : documented !! k = Some e -> documented !! k' = Some e -> k = k'.
Proof.
  intros E1 E2.
  do 12 (destruct k as [|k]; [injection E1 as <-; do 12 (destruct k' as [|k']; [first [reflexivity | discriminate E2]|]); discriminate E2|]).
  discriminate E1.
Qed.
Lemma tells_unique {A} (er : dvec A -> bool) v res c c' : tells er v res c -> tells er v res c' -> c = c'.
Proof.
  destruct res as [u|e]; cbn [tells]; [by intros -> ->|].
  assert (D : forall k, documented !! k = Some e -> e <> InputMustHaveAnEvenLength /\ e <> TypeCanNotResize).
  { intros k Ek. do 12 (destruct k as [|k]; [injection Ek as <-; done|]). discriminate Ek. }
  intros [(k & E & ->)|[[He ->]|[He ->]]] [(k' & E' & ->)|[[He' ->]|[He' ->]]]; try done;
    try (by destruct (D _ E)); try (by destruct (D _ E')); try (subst; discriminate).
  f_equal. f_equal. by apply (documented_distinct _ _ e).
Qed.
Lemma tells_injective {A} (er : dvec A -> bool) v e e' c : tells er v (Err e) c -> tells er v (Err e') c -> e = e'.
Proof.
  cbn [tells].
  assert (D : forall k e, documented !! k = Some e -> Z.of_nat (k + 1) <> 13%Z /\ Z.of_nat (k + 1) <> 14%Z).
  { intros k x Ek. assert (k < 12) by exact (lookup_lt_Some _ _ _ Ek). lia. }
  intros [(k & E & ->)|[[He ->]|[He ->]]] [(k' & E' & Ec)|[[He' Ec]|[He' Ec]]].
  - assert (k = k') by lia. subst k'. congruence.
  - by destruct (D _ _ E).
  - by destruct (D _ _ E).
  - by destruct (D _ _ E').
  - congruence.
  - done.
  - by destruct (D _ _ E').
  - done.
  - congruence.
Qed.
Lemma error_code_positive e : (1 <= translate_error e <= 14)%Z.
Proof. destruct e; cbn [translate_error]; lia. Qed.

Section interop.
Context {A : Type} `{Num A} `{Flt A} `{Rem A} `{Trig A} `{Math A} `{F : Fft A} `{RA : Rounding A} `{IsNan A}.

Lemma convert_vec_spec op (x y : ivec A) code : convert_vec op x = Done (y, code) <->
  exists v b res, op (i_buf x) (i_vec x) = Done (v, b, res) /\ y = IVec v b /\ tells is_erroneous v res code.
Proof.
  unfold convert_vec. destruct (op (i_buf x) (i_vec x)) as [[[v b] res]|].
  - rewrite bind_Done. split.
    + intros [= <- <-]. exists v, b, res. split; [done|]. split; [done|]. destruct res as [u|e]; [done|]. apply translate_error_tells.
    + intros (v' & b' & res' & [= <- <- <-] & -> & Ht). do 2 f_equal. apply (tells_unique is_erroneous v res); [|done].
      destruct res as [u|e]; [done|]. apply translate_error_tells.
  - split; [done|]. by intros (? & ? & ? & ? & _).
Qed.
Lemma trans_vec_spec op (x y : ivec A) code : trans_vec op x = Done (y, code) <->
  exists v b res, op (i_buf x) (i_vec x) = Done (v, b, res) /\ y = IVec v b /\ tells is_erroneous v res code.
Proof. exact (convert_vec_spec op x y code). Qed.

Lemma window_no_spec k : translate_to_window_function (A := A) k = window_no k.
Proof.
  unfold translate_to_window_function, window_no, numbered.
  destruct (Z.eqb_spec k 0) as [->|N0]; [done|]. destruct (Z.eqb_spec k 1) as [->|N1]; [done|]. destruct (Z.eqb_spec k 2) as [->|N2]; [done|].
  destruct (Z.ltb_spec k 0) as [Hn|Hp]; [done|].
  assert (E : Z.to_nat k = 3 + Z.to_nat (k - 3)) by lia. rewrite E. by destruct (Z.to_nat (k - 3)).
Qed.
Lemma padding_no_spec k : translate_to_padding_option k = padding_no k.
Proof.
  unfold translate_to_padding_option, padding_no, numbered.
  destruct (Z.eqb_spec k 0) as [->|N0]; [done|]. destruct (Z.eqb_spec k 1) as [->|N1]; [done|].
  destruct (Z.ltb_spec k 0) as [Hn|Hp]; [done|].
  assert (E : Z.to_nat k = 2 + Z.to_nat (k - 2)) by lia. rewrite E. by destruct (Z.to_nat (k - 2)).
Qed.
Lemma as_u32_spec k : (-2147483648 <= k < 2147483648)%Z -> as_u32 k = u32_of k.
Proof.
  intros Hk. unfold as_u32, u32_of. change (2 ^ 32)%Z with 4294967296%Z. f_equal. destruct (Z.ltb_spec k 0) as [Hn|Hp].
  - rewrite <- (Z.mod_unique k 4294967296 (-1) (k + 4294967296)); lia.
  - apply Z.mod_small. lia.
Qed.
Lemma inf_plain (m : run (dvec A)) (b : buffer A) : (w ← m; Done (w, b, Ok tt)) = plain m (fun w => (w, b, Ok tt)).
Proof. by destruct m. Qed.
Lemma inf_b_plain (m : run (dvec A * buffer A)) : ('(w, b) ← m; Done (w, b, Ok tt)) = plain m (fun '(w, b) => (w, b, Ok tt)).
Proof. by destruct m as [[? ?]|]. Qed.
Lemma no_buf_plain (m : run (dvec A * result unit)) (b : buffer A) : ('(w, res) ← m; Done (w, b, res)) = plain m (fun '(w, res) => (w, b, res)).
Proof. by destruct m as [[? ?]|]. Qed.

Lemma foreign_call_spec e fits c (x y : ivec A) code : c <> F_inplace (Elementary Atan) -> in_range c ->
  foreign_call e fits c x = Done (y, code) <->
  exists v b res, named e fits c (i_buf x) (i_vec x) = Done (v, b, res) /\ y = IVec v b /\ tells is_erroneous v res code.
Proof.
  intros Hc Hk. destruct c; cbn [foreign_call named].
  - assert (E : foreign_call e fits (F_inplace op) x = convert_vec (inf (vec_inplace e op 0)) x).
    { destruct op; try reflexivity. destruct f; try reflexivity. by destruct Hc. }
    cbn [foreign_call] in E. rewrite E, convert_vec_spec. unfold inf. by rewrite inf_plain.
  - rewrite convert_vec_spec. unfold inf. by rewrite inf_plain.
  - rewrite convert_vec_spec. unfold no_buf. by rewrite no_buf_plain.
  - rewrite convert_vec_spec. by rewrite padding_no_spec.
  - rewrite convert_vec_spec. unfold inf_b. by rewrite inf_b_plain, (as_u32_spec factor Hk).
  - rewrite convert_vec_spec. unfold inf. by rewrite inf_plain, window_no_spec.
  - rewrite convert_vec_spec. unfold inf. by rewrite inf_plain, window_no_spec.
  - rewrite trans_vec_spec. unfold inf_b. by rewrite inf_b_plain, window_no_spec.
  - rewrite trans_vec_spec. by rewrite window_no_spec.
  - rewrite trans_vec_spec. unfold inf_b. by rewrite inf_b_plain, window_no_spec.
  - rewrite trans_vec_spec. by rewrite window_no_spec.
  - rewrite convert_vec_spec. unfold inf. by rewrite inf_plain.
  - rewrite trans_vec_spec. unfold inf_b. by rewrite inf_b_plain.
  - by rewrite trans_vec_spec.
  - rewrite convert_vec_spec. unfold inf_b. by rewrite inf_b_plain.
  - rewrite convert_vec_spec. unfold no_buf. by rewrite no_buf_plain.
  - rewrite convert_vec_spec. unfold no_buf. by rewrite no_buf_plain.
  - by rewrite convert_vec_spec.
  - by rewrite convert_vec_spec.
  - rewrite convert_vec_spec. unfold inf_b. by rewrite inf_b_plain.
  - rewrite convert_vec_spec. unfold inf_b. by rewrite inf_b_plain.
  - by rewrite convert_vec_spec.
  - by rewrite convert_vec_spec.
  - by rewrite convert_vec_spec, (as_u32_spec factor Hk).
  - by rewrite convert_vec_spec, (as_u32_spec factor Hk).
Qed.

Lemma convert_scalar_spec {R} (op : dvec A -> run (result R)) d (x : ivec A) r code : convert_scalar op d x = Done (r, code) <->
  exists res, op (i_vec x) = Done res /\ r = match res with Ok y => y | Err _ => d end /\
    tells is_erroneous (i_vec x) (match res with Ok _ => Ok tt | Err e => Err e end) code.
Proof.
  unfold convert_scalar. destruct (op (i_vec x)) as [res|].
  - rewrite bind_Done. split.
    + intros E. exists res. split; [done|]. destruct res as [y|e]; injection E as <- <-; (split; [done|]); [done|]. apply translate_error_tells.
    + intros (res' & [= <-] & -> & Ht). f_equal. destruct res as [y|e]; f_equal.
      * by rewrite Ht.
      * exact (tells_unique _ _ _ _ _ (translate_error_tells _ _ _) Ht).
  - split; [done|]. by intros (? & ? & _).
Qed.

(** The elements at the start are replaced. *)
Lemma overwrite_spec (x : ivec A) l d : vdata (i_vec x) = Done l ->
  (length d < length l -> exists y, overwrite_data x d = Done (y, 0%Z) /\ i_buf y = i_buf x /\
     vdata (i_vec y) = Done (d ++ drop (length d) l) /\ same_meta (i_vec x) (i_vec y) /\ same_rest (i_vec x) (i_vec y)) /\
  (length l <= length d -> overwrite_data x d = Done (x, 7%Z)).
Proof.
  intros E. destruct (vdata_inv _ _ E) as (Hn & Hle & El). unfold overwrite_data, len.
  split; intros Hd.
  - destruct (Nat.ltb_spec (length d) (valid_len (i_vec x))) as [_|Hf]; [|lia]. rewrite E, bind_Done.
    rewrite (splice_Done l 0 d) by lia. rewrite bind_Done, take_0, Nat.add_0_l. cbn [app].
    rewrite (splice_Done (elems (i_vec x)) 0); [|rewrite app_length, drop_length; lia].
    rewrite bind_Done, take_0. cbn [app]. eexists. split; [reflexivity|]. split; [done|].
    assert (L : length (d ++ drop (length d) l) = length l) by (rewrite app_length, drop_length; lia).
    split; [|split].
    + cbn [i_vec]. apply (vdata_intro _ _ (drop (0 + length (d ++ drop (length d) l)) (elems (i_vec x)))); [done|]. cbn. lia.
    + done.
    + split; [done|]. split; [done|]. split; [done|]. cbn [i_vec].
      match goal with |- drop _ (elems (set_elems _ ?l')) = _ => change (elems (set_elems (i_vec x) l')) with l' end.
      rewrite L, Nat.add_0_l, <- Hn. rewrite drop_app_alt by lia. done.
  - destruct (Nat.ltb_spec (length d) (valid_len (i_vec x))) as [Hf|_]; [lia|]. done.
Qed.
End interop.
