(** Operations on vectors with the registers of a backend. *)
From Verif Require Import Proof_ComplexOps Proof_Elem Proof_ElemOps Proof_Registers.
From Verif Require Export Spec_Registers.

Section regs.
Context {A : Type} `{Num A} `{Flt A}.

(** What a register stores is [F] of its numbers, and [F] treats registers independently. *)
Definition half_registers (w : nat) (reg_op : list A -> list A) (F : list (A * A) -> list A) : Prop :=
  F [] = [] /\ (forall c1 c2, 2 * length c1 = w -> F (c1 ++ c2) = F c1 ++ F c2) /\
  (forall c, 2 * length c = w -> take (w / 2) (reg_op (complex_to_array c)) = F c /\ length (F c) = length c).

Lemma half_center_gen w (reg_op : list A -> list A) (F : list (A * A) -> list A) (c : list (A * A)) (t : list A) :
  0 < w -> Nat.even w = true -> half_registers w reg_op F ->
  (2 * length c) mod w = 0 -> length t = length c ->
  run_steps (map (fun j tg => reg ← slice (complex_to_array c) (0 + j * w) (0 + (j + 1) * w); splice tg (j * (w / 2)) (take (w / 2) (reg_op reg)))
    (seq 0 ((2 * length c - 0) / w))) t = Done (F c) /\ length (F c) = length c.
Proof.
  intros Hw Hev (HF0 & HFa & HFr). apply Nat.even_spec in Hev as [h Hh]. assert (Hwh : w / 2 = h) by (rewrite Hh; apply div2_double).
  intros Hm Ht. rewrite Nat.sub_0_r.
  assert (Hgen : forall k pre cs tl, 2 * length cs = k * w -> length tl = length cs -> length pre = (length (complex_to_array c) - 2 * length cs) / 2 ->
    forall p, complex_to_array c = p ++ complex_to_array cs -> (exists i, length p = i * w /\ length pre = i * h) ->
    run_steps (map (fun j tg => reg ← slice (complex_to_array c) (0 + j * w) (0 + (j + 1) * w); splice tg (j * h) (take h (reg_op reg)))
      (seq (length p / w) k)) (pre ++ tl) = Done (pre ++ F cs) /\ length (F cs) = length cs).
  { induction k as [|k IH]; intros pre cs tl Hcs Htl _ p Hp (i & Hi & Hpre).
    { destruct cs; [|simpl in Hcs; lia]. destruct tl; [|done]. by rewrite HF0. }
    cbn [seq map]. rewrite run_steps_cons. rewrite Hi, Nat.div_mul by lia.
    destruct (cut3 cs h (length cs - h) 0) as (b & cs' & e & -> & Hb & Hcs' & He); [nia|]. destruct e; [|done]. rewrite app_nil_r in *.
    destruct (cut3 tl h (length cs') 0) as (tb & t' & e & -> & Htb & Ht' & He'); [rewrite Htl, app_length; lia|]. destruct e; [|done]. rewrite app_nil_r in *.
    rewrite app_length in *. rewrite complex_to_array_app in Hp. rewrite !Nat.add_0_l. rewrite Hp at 1.
    destruct (HFr b ltac:(lia)) as [Hst Hlb]. rewrite Hwh in Hst.
    replace (i * w) with (length p) by lia. replace ((i + 1) * w) with (length p + length (complex_to_array b)) by (rewrite complex_to_array_length; lia).
    rewrite slice_mid, bind_Done, Hst, <- Hpre. rewrite splice_mid by lia. rewrite bind_Done, HFa by lia.
    replace (pre ++ F b ++ t') with ((pre ++ F b) ++ t') by (by rewrite app_assoc).
    assert (Hpb : length (p ++ complex_to_array b) = (i + 1) * w) by (rewrite app_length, complex_to_array_length; lia).
    replace (S i) with (length (p ++ complex_to_array b) / w) by (rewrite Hpb, Nat.div_mul; lia).
    destruct (IH (pre ++ F b) cs' t' ltac:(lia) Ht') with (p := p ++ complex_to_array b) as [E1 E2].
    - rewrite app_length, Hlb, Hb, Hpre, Hp, !app_length, !complex_to_array_length, Hi, Hh.
      replace (i * (2 * h) + (2 * length b + 2 * length cs') - 2 * length cs') with (2 * (i * h + h)) by lia. by rewrite div2_double.
    - by rewrite <- app_assoc.
    - exists (i + 1). split; [done|]. rewrite app_length, Hlb. lia.
    - rewrite E1, app_length, Hlb, E2. split; [by rewrite <- app_assoc|done]. }
  set (k := 2 * length c / w).
  assert (Hk : 2 * length c = k * w) by (pose proof (Nat.div_mod (2 * length c) w ltac:(lia)); unfold k; lia). clearbody k.
  specialize (Hgen k [] c t Hk Ht). rewrite Hwh. simpl length in Hgen. rewrite complex_to_array_length, Nat.sub_diag in Hgen.
  specialize (Hgen eq_refl [] eq_refl (ex_intro _ 0 (conj eq_refl eq_refl))). simpl length in Hgen. rewrite Nat.div_0_l in Hgen by lia. exact Hgen.
Qed.

(** How the numbers are cut into the part before the first register, the registers and the rest *)
Definition cut_at (r : reg_type) (addr : nat) (c L C R : list (A * A)) : Prop :=
  c = L ++ C ++ R /\ (2 * length C) mod reg_len r = 0 /\
  exists part, calc_data_alignment_reqs r addr (2 * length c) = Done part /\ p_left part / 2 = length L /\ p_right part / 2 = length R.

Theorem simd_b_gen (reg_op : list A -> list A) (op : A * A -> A) (F : list (A * A) -> list A) r addr s sched b (v : dvec A) c :
  reg_ok r -> elem_aligned r addr -> cplx v c -> typed v -> address_ok r addr v -> lends b v (length c) -> half_registers (reg_len r) reg_op F ->
  exists v' b', complex_to_real_simd_b reg_op op r addr s sched b v = Done (v', b') /\ (exists L C R, cut_at r addr c L C R /\ reals v' (map op L ++ F C ++ map op R)) /\ converted v v'.
Proof.
  intros Hr Ha Hvc Ht Hok Hb Hop. pose proof (address_ok_cplx r addr v c Hvc Hok) as Hf. destruct Hvc as [Hc Hv].
  destruct (vdata_split v _ Hv) as (rest & He & Hn). unfold complex_to_real_simd_b. rewrite Hc. simpl negb. cbv iota.
  unfold simd_complex_to_real_operation. rewrite Hn, complex_to_array_length, div2_double.
  destruct (borrow_lends n0 b v (length c) Hb) as (T & -> & HT). rewrite bind_Done.
  destruct (alignment_halves r addr (length c) Hr Ha Hf) as
    (part & from & to & rfrom & rto & ml & mc & mr & Hpart & Hcr & Hrcr & Hsum & Hpl & Hpleft & Hpright & Hal & Hm & Hcut & Hccut & Htgt).
  rewrite Hpart, bind_Done. rewrite He. assert (Hsl : slice (complex_to_array c ++ rest) 0 (2 * length c) = Done (complex_to_array c))
    by (apply slice_pre'; by rewrite complex_to_array_length).
  rewrite Hsl, bind_Done, Hcr, bind_Done.
  destruct (cut3 c ml mc mr Hsum) as (L & C & R & -> & HL & HC & HR).
  destruct (cut3 T ml mc mr ltac:(lia)) as (TL & TC & TR & -> & HTL & HTC & HTR).
  rewrite (Hcut A L C R rest HL HC HR), bind_Done, Hrcr, bind_Done.
  destruct (Htgt A TL TC TR HTL HTC HTR) as [-> Hspl]. rewrite bind_Done, from_src_to_dest_small, run_steps_cons.
  pose proof (slice_pre (complex_to_array C) []) as HsC. rewrite app_nil_r in HsC. cbn [fst snd].
  rewrite HsC, bind_Done. rewrite complex_to_array_length.
  assert (Hchk : regs_check r (addr + (from + 0) * elem_size r) (2 * length C - 0) = true).
  { rewrite Nat.add_0_r, Nat.sub_0_r. destruct (decide (mc = 0)) as [E|E]; [unfold regs_check; rewrite HC, E; done|].
    apply regs_check_true; [by apply Hal | by rewrite HC]. }
  rewrite Hchk. cbn [assert_]. rewrite bind_Done, bind_Done.
  destruct (half_center_gen (reg_len r) reg_op F C TC) as [HFC HFl]; [by destruct Hr as (_ & ? & _) | by destruct Hr as (_ & _ & ?) | exact Hop | by rewrite HC | lia |].
  rewrite HFC.
  rewrite bind_Done. rewrite Hspl by lia. rewrite bind_Done, bind_Done.
  rewrite array_to_complex_Done, bind_Done. pose proof (Hccut (A * A)%type L C R [] HL HC HR) as Hce. rewrite app_nil_r in Hce.
  rewrite Hce, bind_Done. rewrite Hpl, Hpleft, Hpright. pose proof (slice_pre (TL ++ F C ++ TR) []) as HsT. rewrite app_nil_r in HsT.
  replace (length (L ++ C ++ R)) with (length (TL ++ F C ++ TR)) by (rewrite !app_length; lia).
  rewrite HsT, bind_Done. rewrite <- HTL, <- HTR.
  replace (length (TL ++ F C ++ TR)) with (length TL + length (F C) + length TR) by (rewrite !app_length; lia).
  rewrite edge_update_zip_spec by lia. rewrite bind_Done.
  assert (Hz : forall (B : Type) (t : list B) (l : list (A * A)), length t = length l -> zip_with (fun _ x => op x) t l = map op l).
  { intros B t. induction t as [|y t IH]; intros [|x l] Hl; try done. simpl. f_equal. apply IH. by injection Hl. }
  rewrite !Hz by lia. assert (Hlr : length (map op L ++ F C ++ map op R) = length (L ++ C ++ R)) by (rewrite !app_length, !map_length; lia).
  assert (Hcut' : cut_at r addr (L ++ C ++ R) L C R) by (split; [done|]; split; [by rewrite HC|]; exists part; by rewrite Hpleft, Hpright, HL, HR).
  rewrite splice_Done by (rewrite ?Hlr, ?app_length; lia). rewrite bind_Done, take_0, app_nil_l.
  rewrite drop_ge, app_nil_r by (rewrite ?Hlr, ?app_length; lia).
  set (cc := L ++ C ++ R) in *. assert (Hlcc : length TL + length (F C) + length TR = length cc) by (unfold cc; rewrite !app_length; lia).
  rewrite Hlcc. generalize dependent cc. intros cc. set (RES := map op L ++ F C ++ map op R). intros.
  destruct (trade_vdata b v RES (length cc) Hb Hlr) as (w & b' & Hw & Hwd & Hwm).
  destruct (trade b RES (data v)) as [st b2] eqn:Et. injection Hw as Hw1 Hw2. rewrite bind_Done. cbv beta iota.
  change (set_data (set_valid_len v (length cc)) st) with (set_valid_len (set_data v st) (length cc)). rewrite Hw1.
  destruct Hwm as (Hm1 & Hm2 & Hm3). destruct (converted_real v w Ht Hm1 Hm2 Hm3) as [H1 H2].
  eexists _, _. split; [reflexivity|]. split; [|done]. exists L, C, R. split; [done|]. split; [done|]. by rewrite vdata_to_real.
Qed.


Theorem get_into_simd_gen (reg_op : list A -> list A) (op : A * A -> A) (F : list (A * A) -> list A) r addr s sched (v dst : dvec A) c :
  reg_ok r -> elem_aligned r addr -> cplx v c -> address_ok r addr v -> alloc_len v = len v -> takes dst (len v) -> half_registers (reg_len r) reg_op F ->
  exists dst', get_into (simd_into_target reg_op op r addr s sched) v dst = Done dst' /\ exists L C R, cut_at r addr c L C R /\ got v (map op L ++ F C ++ map op R) dst dst'.
Proof.
  intros Hr Ha Hvc Hok Hal Ht Hop. pose proof (address_ok_cplx r addr v c Hvc Hok) as Hf. destruct Hvc as [Hc Hv].
  destruct (vdata_split v _ Hv) as (rest & He & Hn). destruct (resize_takes dst (len v) Ht) as (d1 & H1 & Hl1 & Hc1 & Hm1 & Ha1).
  assert (rest = []) as ->.
  { apply length_zero_iff_nil. unfold alloc_len, s_len, len in Hal. fold (elems v) in Hal. rewrite He, app_length in Hal. lia. }
  rewrite app_nil_r in He.
  unfold get_into. rewrite Hc. destruct Ht as (Hcd & _ & _). rewrite Hcd. simpl. rewrite H1. unfold simd_into_target.
  assert (Hn' : len v = 2 * length c) by (unfold len; rewrite Hn, complex_to_array_length; done).
  rewrite Hn' in Ha1. rewrite Hn', div2_double. rewrite resize_within by (done || lia).
  destruct (vdata_within d1 (length c)) as (t & Hvt & Hlt); [lia|].
  change (vdata (set_delta (set_valid_len d1 (length c)) (delta v))) with (vdata (set_valid_len d1 (length c))). rewrite Hvt, bind_Done.
  rewrite (slice_Done t) by lia. rewrite bind_Done. rewrite drop_0, take_ge by lia.
  rewrite He, complex_to_array_length.
  destruct (alignment_halves r addr (length c) Hr Ha Hf) as
    (part & from & to & rfrom & rto & ml & mc & mr & Hpart & Hcr & Hrcr & Hsum & Hpl & Hpleft & Hpright & Halg & Hm & Hcut & Hccut & Htgt).
  rewrite Hpart, bind_Done, Hcr, bind_Done.
  destruct (cut3 c ml mc mr Hsum) as (L & C & R & -> & HL & HC & HR).
  destruct (cut3 t ml mc mr ltac:(lia)) as (TL & TC & TR & -> & HTL & HTC & HTR).
  pose proof (Hcut A L C R [] HL HC HR) as Hce. rewrite app_nil_r in Hce.
  rewrite Hce, bind_Done, Hrcr, bind_Done.
  destruct (Htgt A TL TC TR HTL HTC HTR) as [-> Hspl]. rewrite bind_Done, from_src_to_dest_small, run_steps_cons.
  pose proof (slice_pre (complex_to_array C) []) as HsC. rewrite app_nil_r in HsC. cbn [fst snd].
  rewrite HsC, bind_Done. rewrite complex_to_array_length.
  assert (Hchk : regs_check r (addr + (from + 0) * elem_size r) (2 * length C - 0) = true).
  { rewrite Nat.add_0_r, Nat.sub_0_r. destruct (decide (mc = 0)) as [E|E]; [unfold regs_check; rewrite HC, E; done|].
    apply regs_check_true; [by apply Halg | by rewrite HC]. }
  rewrite Hchk. cbn [assert_]. rewrite bind_Done, bind_Done.
  destruct (half_center_gen (reg_len r) reg_op F C TC) as [HFC HFl]; [by destruct Hr as (_ & ? & _) | by destruct Hr as (_ & _ & ?) | exact Hop | by rewrite HC | lia |].
  rewrite HFC.
  rewrite bind_Done. rewrite Hspl by lia. rewrite bind_Done.
  rewrite array_to_complex_Done, bind_Done. pose proof (Hccut (A * A)%type L C R [] HL HC HR) as Hcc. rewrite app_nil_r in Hcc.
  rewrite Hcc, bind_Done. rewrite Hpl, Hpleft, Hpright. pose proof (slice_pre (TL ++ F C ++ TR) []) as HsT. rewrite app_nil_r in HsT.
  replace (slice (TL ++ F C ++ TR) 0 (length (L ++ C ++ R))) with (Done (TL ++ F C ++ TR)).
  2:{ rewrite <- HsT. f_equal. rewrite !app_length. lia. }
  rewrite bind_Done. rewrite <- HTL, <- HTR.
  replace (length (L ++ C ++ R)) with (length TL + length (F C) + length TR) by (rewrite !app_length; lia).
  rewrite edge_update_zip_spec by lia. rewrite bind_Done.
  assert (Hz : forall (B : Type) (t : list B) (l : list (A * A)), length t = length l -> zip_with (fun _ x => op x) t l = map op l).
  { intros B t. induction t as [|y t IH]; intros [|x l] Hl; try done. simpl. f_equal. apply IH. by injection Hl. }
  rewrite !Hz by lia. assert (Hlr : length (map op L ++ F C ++ map op R) = length (L ++ C ++ R)) by (rewrite !app_length, !map_length; lia).
  assert (Hcut' : cut_at r addr (L ++ C ++ R) L C R) by (split; [done|]; split; [by rewrite HC|]; exists part; by rewrite Hpleft, Hpright, HL, HR).
  rewrite splice_Done by (rewrite ?Hlr, ?app_length; lia). rewrite bind_Done, take_0, app_nil_l.
  rewrite drop_ge, app_nil_r by (rewrite ?Hlr, ?app_length; lia).
  replace (length TL + length (F C) + length TR) with (length (L ++ C ++ R)) by (rewrite !app_length; lia).
  set (RES := map op L ++ F C ++ map op R) in *. set (cc := L ++ C ++ R) in *. clearbody cc.
  destruct (vdata_splice (set_delta (set_valid_len d1 (length cc)) (delta v)) (TL ++ TC ++ TR) RES Hvt ltac:(lia))
    as (w & -> & Hw & (Hw1 & Hw2 & Hw3) & _).
  exists w. split; [done|]. exists L, C, R. split; [done|]. destruct Hm1 as (M1 & M2 & M3). split_and!; try (rewrite ?Hw1, ?Hw2, ?Hw3; simpl; congruence).
  split; [|done]. unfold is_complex in *. rewrite Hw3. simpl. done.
Qed.


(** ** The operations on vectors *)
Lemma sliced_length {B} (l l' : list B) a b : slice l a b = Done l' -> length l' = b - a.
Proof.
  unfold slice. destruct (_ && _) eqn:E; [|discriminate]. intros [= <-]. apply andb_true_iff in E as [E1 E2].
  apply Nat.leb_le in E1, E2. rewrite take_length, drop_length. lia.
Qed.
Lemma run_steps_ext (fs gs : list (step A)) : Forall2 (fun f g => forall c, f c = g c) fs gs -> forall c, run_steps fs c = run_steps gs c.
Proof.
  induction 1 as [|f g fs gs Hfg _ IH]; intros c; [done|]. rewrite !run_steps_cons, Hfg. destruct (g c) as [c'|]; [|done]. rewrite !bind_Done. apply IH.
Qed.
Lemma bin_steps_ext r addr (f g : list A -> list A -> list A) original range off n :
  (forall b o, length b = reg_len r -> length o = reg_len r -> f b o = g b o) -> forall c,
  run_steps (bin_steps r addr f original range off n) c = run_steps (bin_steps r addr g original range off n) c.
Proof.
  intros Hfg. apply run_steps_ext. unfold bin_steps, block_steps. constructor; [done|].
  generalize (seq 0 (n / reg_len r)). intros l. induction l as [|i l IH]; [constructor|]. cbn [map]. constructor; [|done]. intros c.
  destruct (slice c (i * reg_len r) (i * reg_len r + reg_len r)) as [b|] eqn:Eb; [|done]. rewrite !bind_Done.
  destruct (slice original _ _) as [o|] eqn:Eo; [|done]. rewrite !bind_Done. rewrite Hfg; [done| |].
  - apply sliced_length in Eb. lia.
  - apply sliced_length in Eo. lia.
Qed.
Lemma binary_complex_ext r addr s sched (f g : list A -> list A -> list A) op (v o : dvec A) :
  (forall b o, length b = reg_len r -> length o = reg_len r -> f b o = g b o) ->
  binary_complex_op r addr s sched f op v o = binary_complex_op r addr s sched g op v o.
Proof.
  intros Hfg. unfold binary_complex_op. destruct (negb _); [done|]. destruct (meta_disagree v o); [done|].
  destruct (slice (elems v) 0 (valid_len v)); [|done]. rewrite !bind_Done. destruct (calc_data_alignment_reqs _ _ _) as [part|]; [|done]. rewrite !bind_Done.
  destruct (vdata o) as [other|]; [|done]. rewrite !bind_Done. destruct (center_range part) as [[from to]|]; [|done]. rewrite !bind_Done.
  destruct (slice other from to) as [original|]; [|done]. rewrite !bind_Done. destruct (slice (elems v) from to) as [target|]; [|done]. rewrite !bind_Done.
  rewrite !from_src_to_dest_small. by rewrite (bin_steps_ext r _ f g).
Qed.

Definition known (k : backend A) : Prop := k ∈ [fallback_f32x4; fallback_f64x2; sse_f32x4; sse_f64x2; avx_f32x8; avx_f64x4].

Section ops.
Context (k : backend A).
Hypothesis reg : reg_ok (bk_reg k).
Hypothesis arith : arithmetic_ok k.

Lemma even_reg : exists h, reg_len (bk_reg k) = 2 * h.
Proof using reg. destruct reg as (_ & _ & E). apply Nat.even_spec in E as [h E]. by exists h. Qed.
Lemma lanes_of (b : list A) : length b = reg_len (bk_reg k) -> exists c, b = as_lanes c /\ 2 * length c = reg_len (bk_reg k).
Proof using reg.
  intros Hb. destruct reg as (_ & _ & E). rewrite <- Hb in E. destruct (exists_complex b E) as [c ->]. exists c. split; [done|].
  by rewrite <- Hb, complex_to_array_length.
Qed.
Lemma radd_from_complex z b : length b = reg_len (bk_reg k) -> radd b (bk_from_complex k z) = on_pairs (fun x => cadd x z) b.
Proof using reg arith.
  intros Hb. destruct arith as (E & _). rewrite E. apply (reg_bin_from_complex nadd (bk_reg k) z b reg Hb).
Qed.
Lemma bk_offset_real_eq addr s sched x (v : dvec A) :
  elem_aligned (bk_reg k) addr -> address_ok (bk_reg k) addr v ->
  (forall l, reals v l -> exists v', bk_offset_real k addr s sched x v = Done v' /\ reals v' (map (fun y => y + x)%num l) /\ same_meta v v' /\ same_rest v v') /\
  (forall c, cplx v c -> exists v', bk_offset_real k addr s sched x v = Done v' /\ cplx v' (map (fun y => complex_sum y (x, n0)) c) /\ same_meta v v' /\ same_rest v v').
Proof using reg arith.
  intros Ha Hok. unfold bk_offset_real. split.
  - intros l [Hv1 Hv2]. rewrite Hv1.
    destruct (simd_real_operation_spec (bk_reg k) addr s sched (fun y => bk_add_real k y x) (fun y => y + x)%num Small v l) as [Hs _]; try done.
    { apply small_nothing. }
    { intros b Hb. destruct arith as (_ & E & _). by destruct (E b x Hb). }
    destruct (Hs (address_ok_real _ _ _ _ Hv2 Hok)) as (v' & -> & Hd & Hm & Hrr). exists v'. split_and!; try done.
    split; [by rewrite (same_is_complex _ _ Hm) | done].
  - intros c [Hv1 Hv2]. rewrite Hv1.
    destruct (simd_complex_operation_spec (bk_reg k) addr s sched (fun y => radd y (bk_from_complex k (x, n0))) (fun y => cadd y (x, n0)) Small v c) as (v' & -> & Hd & Hm & Hrr); try done.
    { apply small_nothing. }
    { intros b Hb. by apply radd_from_complex. }
    { by apply address_ok_cplx with v. }
    exists v'. split_and!; try done. split; [by rewrite (same_is_complex _ _ Hm) | done].
Qed.
Lemma bk_offset_complex_eq addr s sched z (v : dvec A) c :
  elem_aligned (bk_reg k) addr -> address_ok (bk_reg k) addr v -> cplx v c ->
  exists v', bk_offset_complex k addr s sched z v = Done v' /\ cplx v' (map (fun y => complex_sum y z) c) /\ same_meta v v' /\ same_rest v v'.
Proof using reg arith.
  intros Ha Hok [Hv1 Hv2]. unfold bk_offset_complex. rewrite Hv1. cbn [negb].
  destruct (simd_complex_operation_spec (bk_reg k) addr s sched (fun y => radd y (bk_from_complex k z)) (fun y => cadd y z) Small v c) as (v' & -> & Hd & Hm & Hrr); try done.
  { apply small_nothing. }
  { intros b Hb. by apply radd_from_complex. }
  { by apply address_ok_cplx with v. }
  exists v'. split_and!; try done. split; [by rewrite (same_is_complex _ _ Hm) | done].
Qed.
Lemma bk_scale_complex_eq addr s sched z (v : dvec A) c :
  elem_aligned (bk_reg k) addr -> address_ok (bk_reg k) addr v -> cplx v c ->
  exists v', bk_vscale_complex k addr s sched z v = Done v' /\ cplx v' (map (fun y => complex_product y z) c) /\ same_meta v v' /\ same_rest v v'.
Proof using reg arith.
  intros Ha Hok [Hv1 Hv2]. unfold bk_vscale_complex. rewrite Hv1. cbn [negb].
  destruct (simd_complex_operation_spec (bk_reg k) addr s sched (fun y => bk_scale_complex k y z) (fun y => cmul y z) Small v c) as (v' & -> & Hd & Hm & Hrr); try done.
  { apply small_nothing. }
  { intros b Hb. destruct (lanes_of b Hb) as (d & -> & Hd). destruct arith as (_ & _ & E & _). destruct (E d z Hd) as (_ & -> & _). unfold as_lanes. by rewrite on_pairs_complex. }
  { by apply address_ok_cplx with v. }
  exists v'. split_and!; try done. split; [by rewrite (same_is_complex _ _ Hm) | done].
Qed.
Lemma bk_scale_real_eq addr s sched x (v : dvec A) :
  elem_aligned (bk_reg k) addr -> simd_fits (bk_reg k) addr (len v) ->
  (forall l, reals v l -> exists v', bk_vscale_real k addr s sched x v = Done v' /\ reals v' (map (fun y => y * x)%num l) /\ same_meta v v' /\ same_rest v v') /\
  (forall c, cplx v c -> exists v', bk_vscale_real k addr s sched x v = Done v' /\ cplx v' (map (fun y => (fst y * x, snd y * x)%num) c) /\ same_meta v v' /\ same_rest v v').
Proof using reg arith.
  intros Ha Hok. assert (Hgen : forall l, vdata v = Done l -> exists v', bk_vscale_real k addr s sched x v = Done v' /\ vdata v' = Done (map (fun y => y * x)%num l) /\ same_meta v v' /\ same_rest v v').
  { intros l Hv. unfold bk_vscale_real.
    destruct (simd_real_operation_spec (bk_reg k) addr s sched (fun y => bk_scale_real k y x) (fun y => y * x)%num Small v l) as [Hs _]; try done.
    { apply small_nothing. }
    { intros b Hb. destruct arith as (_ & E & _). by destruct (E b x Hb) as (_ & ? & _). }
    rewrite (reals_len v l Hv) in Hok. exact (Hs Hok). }
  split.
  - intros l [Hv1 Hv2]. destruct (Hgen l Hv2) as (v' & -> & Hd & Hm & Hrr). exists v'. split_and!; try done. split; [by rewrite (same_is_complex _ _ Hm) | done].
  - intros c [Hv1 Hv2]. destruct (Hgen _ Hv2) as (v' & -> & Hd & Hm & Hrr). exists v'. split_and!; try done. split; [by rewrite (same_is_complex _ _ Hm)|].
    rewrite Hd. f_equal. clear. induction c as [|[y1 y2] c IH]; [done|]. cbn [complex_to_array map]. by rewrite IH.
Qed.
Lemma bk_sqrt_eq addr s sched (v : dvec A) l :
  elem_aligned (bk_reg k) addr -> address_ok (bk_reg k) addr v -> reals v l ->
  exists v', bk_vsqrt_real k addr s sched v = Done v' /\ reals v' (map fsqrt l) /\ same_meta v v' /\ same_rest v v'.
Proof using reg arith.
  intros Ha Hok [Hv1 Hv2]. unfold bk_vsqrt_real.
  destruct (simd_real_operation_spec (bk_reg k) addr s sched (bk_sqrt k) fsqrt Small v l) as [Hs _]; try done.
  { apply small_nothing. }
  { intros b Hb. destruct arith as (_ & E & _). by destruct (E b n0 Hb) as (_ & _ & ?). }
  destruct (Hs (address_ok_real _ _ _ _ Hv2 Hok)) as (v' & -> & Hd & Hm & Hrr). exists v'. split_and!; try done. split; [by rewrite (same_is_complex _ _ Hm) | done].
Qed.
Lemma bk_vmul_eq addr s sched (v o : dvec A) : bk_vmul k addr s sched v o = vmul (bk_reg k) addr s sched v o.
Proof using reg arith.
  unfold bk_vmul, vmul. destruct (negb _); [done|]. destruct (meta_disagree v o); [done|]. destruct (is_complex v); [|done].
  apply binary_complex_ext. intros b b' Hb Hb'. destruct (lanes_of b Hb) as (c & -> & Hc), (lanes_of b' Hb') as (d & -> & Hd).
  destruct arith as (_ & _ & _ & E). destruct (E c d Hc Hd) as [-> _]. unfold reg_cbin, as_lanes. by rewrite !pairs_of_complex_to_array.
Qed.
Lemma bk_vdiv_eq addr s sched (v o : dvec A) : bk_vdiv k addr s sched v o = vdiv (bk_reg k) addr s sched v o.
Proof using reg arith.
  unfold bk_vdiv, vdiv. destruct (negb _); [done|]. destruct (meta_disagree v o); [done|]. destruct (is_complex v); [|done].
  apply binary_complex_ext. intros b b' Hb Hb'. destruct (lanes_of b Hb) as (c & -> & Hc), (lanes_of b' Hb') as (d & -> & Hd).
  destruct arith as (_ & _ & _ & E). destruct (E c d Hc Hd) as [_ ->]. unfold reg_cbin, as_lanes. by rewrite !pairs_of_complex_to_array.
Qed.
Lemma norms_halves : norms_ok k -> halves (reg_len (bk_reg k)) (fun x => bk_stored k (bk_complex_abs_squared k x)) (fun z => fst z * fst z + snd z * snd z)%num /\
  halves (reg_len (bk_reg k)) (fun x => bk_stored k (bk_complex_abs k x)) (fun z => fsqrt (fst z * fst z + snd z * snd z)%num).
Proof using reg.
  intros Hn. split; intros b Hb; destruct (lanes_of b Hb) as (c & -> & Hc); destruct (Hn c Hc) as [E1 E2]; unfold as_lanes in *; rewrite ?E1, ?E2, pairs_of_complex_to_array;
    apply take_ge; rewrite map_length, <- Hc, div2_double; lia.
Qed.
End ops.

(** ** The f64x4 registers of avx.rs *)
Lemma first_of_two_even {B} (l1 l2 : list B) : Nat.even (length l1) = true -> first_of_two (l1 ++ l2) = first_of_two l1 ++ first_of_two l2.
Proof.
  intros E. apply Nat.even_spec in E as [h E]. revert l1 E. induction h as [|h IH]; intros l1 E; [by destruct l1|].
  destruct l1 as [|x [|y l1]]; simpl in E; try lia. simpl. rewrite IH by lia. done.
Qed.
Lemma first_of_two_length {B} (l : list B) : length (first_of_two l) = length l.
Proof.
  assert (forall n (l : list B), length l <= n -> length (first_of_two l) = length l) as Hg; [|by apply (Hg (length l))].
  induction n as [|n IH]; intros [|x [|y l']] Hl; simpl in *; try done; try lia. rewrite IH by lia. done.
Qed.
Lemma doubled_half_registers (op : A * A -> A) (reg_op : list A -> list A) :
  (forall z w, reg_op (complex_to_array [z; w]) = [op z; op z]) -> half_registers 4 reg_op (fun c => first_of_two (map op c)).
Proof.
  intros Hr. split; [done|]. split.
  - intros c1 c2 H1. rewrite map_app. apply first_of_two_even. rewrite map_length. replace (length c1) with 2 by lia. done.
  - intros c Hc. destruct c as [|z [|w [|]]]; simpl in Hc; try lia. rewrite Hr. by split.
Qed.
Lemma doubled_cut (op : A * A -> A) addr c L C R : elem_aligned f64x4 addr -> csimd_fits f64x4 addr (2 * length c) -> cut_at f64x4 addr c L C R ->
  doubled_from addr (map op c) (map op L ++ first_of_two (map op C) ++ map op R).
Proof.
  intros Ha Hf (Hc & HC & part & Hp & HL & HR). exists (map op L), (map op C), (map op R). change (reg_len f64x4) with 4 in HC.
  split; [by rewrite Hc, !map_app|]. split; [done|]. split.
  { rewrite map_length. pose proof (Nat.div_mod (2 * length C) 4 ltac:(lia)). replace (length C) with (2 * (2 * length C / 4)) by lia. apply even_double. }
  rewrite !map_length. assert (Hr : reg_ok f64x4) by (split_and!; cbn; lia || done).
  destruct (calc_data_alignment_reqs_spec f64x4 addr (2 * length c) Hr Ha) as (left & Hleft & Hlt & Hcase).
  pose proof (alignment_eq _ _ _ Hr Hleft) as Hleq. change (reg_bytes f64x4) with 32 in *. change (elem_size f64x4) with 8 in *. change (reg_len f64x4) with 4 in *.
  rewrite <- Hleq. apply (f_equal length) in Hc. rewrite !app_length in Hc.
  destruct Hcase as [[Hsmall E]|[Hbig E]]; rewrite E in Hp; apply (f_equal (fun r => match r with Done p => (p_left p / 2, p_right p / 2) | Panicked => (0, 0) end)) in Hp; rewrite HL, HR in Hp; cbn beta iota in Hp;
    unfold p_left, p_right in Hp; injection Hp as HL' HR'.
  - change (2 * length c / 2 = length L) in HL'. rewrite div2_double in HL'. assert (2 * length c <? left + 4 = true) as -> by (apply Nat.ltb_lt; lia).
    destruct C; [done|]. simpl in Hc. lia.
  - assert (2 * length c <? left + 4 = false) as -> by (apply Nat.ltb_ge; lia).
    split.
    + change (left / 2 = length L) in HL'. rewrite <- HL', <- Hleft. change 16 with (2 * 8). symmetry. apply Nat.div_mul_cancel_r; lia.
    + change ((2 * length c - left) mod 4 / 2 = length R) in HR'. rewrite <- HR'. pose proof (Nat.mod_upper_bound (2 * length c - left) 4 ltac:(lia)). apply Nat.div_lt_upper_bound; lia.
Qed.
End regs.
