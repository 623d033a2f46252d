(** Transforms and convolutions don't depend on the content of the buffer. *)
From Verif Require Import Proof_Base Proof_Vec Proof_Frame Proof_FrameB Proof_Simd Proof_History.
From Verif Require Export Proof_BufferConv.
From stdpp Require Import list list_numbers tactics.
From Verif Require Import Model_Chunk Model_Reorg.

Ltac step := apply rel_same; let x := fresh "x" in let E := fresh "E" in intros x E; try (destruct x as [? ?]); cbv beta iota.
Ltac vb H := eapply rel_bind; [H|]; let v1 := fresh "v" in let v2 := fresh "v" in let c1 := fresh "c" in let c2 := fresh "c" in let Hv := fresh in let Hc := fresh "Hb" in
  intros [v1 c1] [v2 c2] [Hv Hc]; cbn [fst snd] in Hv, Hc; subst v2.
Ltac vbr H := eapply rel_bind; [H|]; let v1 := fresh "v" in let v2 := fresh "v" in let c1 := fresh "c" in let c2 := fresh "c" in let e1 := fresh "e" in let e2 := fresh "e" in
  let Hv := fresh in let Hc := fresh "Hb" in let He := fresh in
  intros [[v1 c1] e1] [[v2 c2] e2] [[Hv Hc] He]; cbn [fst snd] in Hv, Hc, He; subst v2 e2.

Section transforms.
Context {A : Type} `{Num A} `{Flt A} `{Rem A} `{Trig A} `{F : Fft A}.

Lemma rel_run_fft tr b1 b2 (v : dvec A) : alike b1 b2 -> rel same_vb (run_fft tr b1 v) (run_fft tr b2 v).
Proof.
  intros Hb. unfold run_fft. cbv zeta. eapply rel_bind; [by apply rel_borrow|]. intros t1 t2 _. same. same. same.
  split; [done|]. by apply give_back_alike.
Qed.
Lemma rel_to_complex_first b1 b2 (v : dvec A) : alike b1 b2 ->
  rel same_vb (if negb (is_complex v) then '(v', b') ← zero_interleave_b n0 b1 v 2; Done (vec_to_complex v', b') else Done (v, b1))
    (if negb (is_complex v) then '(v', b') ← zero_interleave_b n0 b2 v 2; Done (vec_to_complex v', b') else Done (v, b2)).
Proof. intros Hb. destruct (negb _); [|done]. vb ltac:(by apply rel_zero_interleave). done. Qed.
Lemma rel_plain_fft b1 b2 (v : dvec A) : alike b1 b2 -> rel same_vb (plain_fft b1 v) (plain_fft b2 v).
Proof.
  intros Hb. unfold plain_fft. destruct (negb (ddomain_eqb _ _)); [done|]. cbv zeta. vb ltac:(by apply rel_to_complex_first). vb ltac:(by apply rel_run_fft). done.
Qed.
Lemma rel_plain_ifft b1 b2 (v : dvec A) : alike b1 b2 -> rel same_vb (plain_ifft b1 v) (plain_ifft b2 v).
Proof.
  intros Hb. unfold plain_ifft. destruct (negb (ddomain_eqb _ _)); [done|]. cbv zeta. vb ltac:(by apply rel_to_complex_first). vb ltac:(by apply rel_run_fft). done.
Qed.
Lemma rel_vfft b1 b2 (v : dvec A) : alike b1 b2 -> rel same_vb (vfft b1 v) (vfft b2 v).
Proof. intros Hb. unfold vfft. vb ltac:(by apply rel_plain_fft). same. done. Qed.
Lemma rel_windowed_fft w s sched b1 b2 (v : dvec A) : alike b1 b2 -> rel same_vb (windowed_fft w s sched b1 v) (windowed_fft w s sched b2 v).
Proof. intros Hb. unfold windowed_fft. same. vb ltac:(by apply rel_plain_fft). same. done. Qed.
Lemma rel_vifft r addr s sched b1 b2 (v : dvec A) : alike b1 b2 -> rel same_vb (vifft r addr s sched b1 v) (vifft r addr s sched b2 v).
Proof. intros Hb. unfold vifft. same. same. by apply rel_plain_ifft. Qed.
Lemma rel_windowed_ifft w r addr s sched sched' b1 b2 (v : dvec A) : alike b1 b2 ->
  rel same_vb (windowed_ifft w r addr s sched sched' b1 v) (windowed_ifft w r addr s sched sched' b2 v).
Proof. intros Hb. unfold windowed_ifft. vb ltac:(by apply rel_vifft). same. done. Qed.
Lemma rel_symmetric_fft prepare f b1 b2 (v : dvec A) : (forall b1 b2 v, alike b1 b2 -> rel same_vb (f b1 v) (f b2 v)) -> alike b1 b2 ->
  rel same_vbr (symmetric_fft prepare f b1 v) (symmetric_fft prepare f b2 v).
Proof.
  intros Hf Hb. unfold symmetric_fft. destruct (negb _ || _); [done|]. destruct (_ =? 0); [done|]. vb ltac:(by apply rel_zero_interleave). cbv zeta.
  same. vb ltac:(by apply Hf). same. done.
Qed.
Lemma rel_mirror b1 b2 (v : dvec A) : alike b1 b2 -> rel same_vb (mirror b1 v) (mirror b2 v).
Proof.
  intros Hb. unfold mirror. destruct (negb _ && _); [done|]. cbv zeta. apply rel_same. intros tl Etl. apply usub_eq in Etl as [Hn ->]. set (n := len v) in *.
  eapply rel_bind; [by apply rel_borrow|]. intros T1 T2 HT. pose proof (agree_none _ _ _ HT) as Ha. same.
  eapply rel_bind; [apply rel_copy, Ha|]. intros u1 u2 [Hb1 Hu]. same. eapply rel_bind; [apply rel_copy, Hu|]. intros w1 w2 [Hb2 Hw].
  apply rel_same. intros i Ei. apply usub_eq in Ei as [Hi ->].
  set (R := fun (x y : nat * nat * list A) => fst x = fst y /\ agree (2 * n - 2) (fun k => k < n \/ fst (fst x) < k) (snd x) (snd y)).
  eapply (rel_bind (fun x y => R x y /\ (let '(i, j, temp) := x in n <=? i) = false)).
  - apply rel_while.
    + intros [[i1 j1] l1] [[i2 j2] l2] [[= <- <-] _]. done.
    + intros [[i1 j1] l1] [[i2 j2] l2] [[= <- <-] Hl] Hc. apply Nat.leb_le in Hc. cbn [fst snd] in Hl. same.
      eapply rel_bind; [apply rel_wr, Hl|]. intros m1 m2 [Hi1 Hm]. same. same. apply rel_same. intros i' Ei'. apply usub_eq in Ei' as [Hi' ->].
      eapply rel_bind; [apply rel_wr, Hm|]. intros q1 q2 [Hi2 Hq]. apply rel_same. intros i'' Ei''. apply usub_eq in Ei'' as [Hi'' ->].
      cbn [rel]. split; [done|]. cbn [fst snd]. revert Hq. apply agree_mono. intros k Hk [Hkn|Hki]; [right; right; by left|].
      destruct (decide (k = i1 - 1)); [by left|]. destruct (decide (k = i1)); [right; by left|]. right; right; right. lia.
    + split; [done|]. cbn [fst snd]. revert Hw. apply agree_mono. intros k Hk [Hkn|Hki]; [|lia].
      destruct (decide (k < 2)); [left; lia|]. right; left; lia.
  - intros [[i1 j1] l1] [[i2 j2] l2] [[[= <- <-] Hl] Hend]. cbn [fst snd] in Hl. apply Nat.leb_gt in Hend.
    apply rel_trade; [done| |intros st c1 c2 Hc; done]. apply (agree_eq _ _ _ _ Hl). intros k Hk. lia.
Qed.
Lemma rel_plain_sifft s sched b1 b2 (v : dvec A) : alike b1 b2 -> rel same_vbr (plain_sifft s sched b1 v) (plain_sifft s sched b2 v).
Proof.
  intros Hb. unfold plain_sifft. cbv zeta. destruct (negb _ || _); [done|]. apply rel_same. intros asym _. destruct asym; [done|].
  vb ltac:(by apply rel_mirror). vb ltac:(by apply rel_run_fft). vb ltac:(by apply rel_conversion). done.
Qed.
Lemma rel_sifft r addr s sched sched' b1 b2 (v : dvec A) : alike b1 b2 -> rel same_vbr (sifft r addr s sched sched' b1 v) (sifft r addr s sched sched' b2 v).
Proof. intros Hb. unfold sifft. same. same. by apply rel_plain_sifft. Qed.
Lemma rel_windowed_sifft w r addr s sched sched' sched'' b1 b2 (v : dvec A) : alike b1 b2 ->
  rel same_vbr (windowed_sifft w r addr s sched sched' sched'' b1 v) (windowed_sifft w r addr s sched sched' sched'' b2 v).
Proof. intros Hb. unfold windowed_sifft. vbr ltac:(by apply rel_sifft). destruct e as [[]|]; [|done]. same. done. Qed.
Lemma rel_prepare r addr s sched b1 b2 (v : dvec A) : alike b1 b2 -> rel same_vb (prepare_argument r addr s sched b1 v) (prepare_argument r addr s sched b2 v).
Proof. intros Hb. unfold prepare_argument. vb ltac:(by apply rel_plain_fft). same. done. Qed.
Lemma rel_prepare_padded r addr s sched b1 b2 (v : dvec A) : alike b1 b2 -> wf v ->
  rel same_vb (prepare_argument_padded r addr s sched b1 v) (prepare_argument_padded r addr s sched b2 v).
Proof. intros Hb Hw. unfold prepare_argument_padded. same. vbr ltac:(by apply rel_zero_pad). destruct e as [[]|]; [|done]. by apply rel_prepare. Qed.
Lemma rel_correlate r addr s sched sched' b1 b2 (v o : dvec A) : alike b1 b2 -> wf v ->
  rel same_vbr (correlate r addr s sched sched' b1 v o) (correlate r addr s sched sched' b2 v o).
Proof.
  intros Hb Hw. unfold correlate. cbv zeta. destruct (negb _ || _); [done|]. destruct (negb _ || _); [done|]. vbr ltac:(by apply rel_zero_pad).
  destruct e as [[]|]; [|done]. same. same. vb ltac:(by apply rel_plain_fft, no_trade_alike). same. same. step. same. destruct r0 as [[]|]; [|done].
  vb ltac:(by apply rel_plain_ifft, no_trade_alike). same. same. same. done.
Qed.
End transforms.

Section convolutions.
Context {A : Type} `{Num A}.

Lemma rel_into_buffer {P} (convert : list A -> run (list P)) (back : list P -> list A) m b1 b2 (v : dvec A) f : alike b1 b2 ->
  (forall l1 l2, length l1 = len v -> length l2 = len v ->
     rel (fun d1 d2 => (length d1 = m /\ length d2 = m) /\ forall d : list P, length d = m -> length (back d) = len v) (convert l1) (convert l2)) ->
  (forall data d1 d2, length d1 = m -> length d2 = m -> rel (fun x y => x = y /\ length x = m) (f data d1) (f data d2)) ->
  rel same_vb (into_buffer convert back b1 v f) (into_buffer convert back b2 v f).
Proof.
  intros Hb Hcv Hf. unfold into_buffer. eapply rel_bind; [by apply rel_borrow|]. intros T1 T2 HT. pose proof (agree_none _ _ _ HT) as Ha.
  same. rename x into raw. apply rel_same. intros data Ed. eapply rel_bind; [apply rel_slice, Ha|]. intros t1 t2 [_ (L1 & L2 & _)]. rewrite Nat.sub_0_r in L1, L2.
  eapply rel_bind; [by apply Hcv|]. intros d1 d2 [[Hd1 Hd2] Hback]. eapply rel_bind; [by apply Hf|]. intros x ? [<- Hx].
  assert (Hl : length (back x) = len v) by (by apply Hback). eapply rel_bind; [apply (rel_splice (len v) (len v) _ (fun _ => True) T1 T2 0 _ _ Ha); by split_and!|].
  intros y1 y2 [_ Hy]. apply rel_trade; [done| |intros; done]. apply (agree_eq _ _ _ _ Hy). intros i Hi. cbn [Nat.leb andb]. rewrite (proj2 (Nat.ltb_lt _ _)) by lia. done.
Qed.
Lemma convert_reals n (l1 l2 : list A) : length l1 = n -> length l2 = n ->
  rel (fun d1 d2 : list A => (length d1 = n /\ length d2 = n) /\ forall d : list A, length d = n -> length ((fun x => x) d) = n) (as_reals l1) (as_reals l2).
Proof. intros H1 H2. done. Qed.
Lemma convert_complex n (l1 l2 : list A) : length l1 = n -> length l2 = n ->
  rel (fun d1 d2 : list (A * A) => (length d1 = n / 2 /\ length d2 = n / 2) /\ forall d : list (A * A), length d = n / 2 -> length (complex_to_array d) = n)
    (as_complex l1) (as_complex l2).
Proof.
  intros H1 H2. unfold as_complex. eapply rel_mono; [|apply (rel_to_complex n (fun _ => False)); by apply agree_none].
  intros x y [Hn (Hx & Hy & _)]. cbv beta. split; [done|]. intros d Hd. rewrite complex_to_array_length. lia.
Qed.

Lemma rel_execute {X} co s sched w (op : nat * nat -> nat -> run X) l1 l2 : 0 < w -> length l1 = length l2 ->
  rel (fun x y => x = y /\ length x = length l1) (execute_with_range co s sched l1 w (fun rg n => elem_steps (fun i _ => op rg i) n))
    (execute_with_range co s sched l2 w (fun rg n => elem_steps (fun i _ => op rg i) n)).
Proof.
  intros Hw Hl. rewrite <- (execute_filling co s sched l1 l2 w op Hl). destruct (execute_with_range _ _ _ l1 _ _) as [x|] eqn:E; [|done]. cbn. split; [done|].
  apply execute_with_range_len in E; [done|done|]. intros rg m st Hst. by apply (elem_steps_len _ _ _ Hst).
Qed.
Lemma rel_convolve_points {P} (zero : P) add mul s sched m k (data other d1 d2 : list P) : length d1 = length d2 ->
  rel (fun x y => x = y /\ length x = length d1) (convolve_points zero add mul s sched m k data other d1) (convolve_points zero add mul s sched m k data other d2).
Proof.
  intros Hd. unfold convolve_points. apply rel_same. intros [[[os oe] fl] cl] _. same.
  apply (rel_execute Large s sched 1 (fun range i => convolve_iteration zero add mul data x (fst range + i) cl fl)); [lia|done].
Qed.
(** A loop which writes the elements from the first to the last *)
Lemma rel_fill {P} (g : nat -> run P) n d1 d2 (Q : nat -> Prop) m : agree m Q d1 d2 ->
  rel (fun x y => agree m (fun i => i < n \/ Q i) x y) (loop n 0 (fun i d => x ← g i; wr d i x) d1) (loop n 0 (fun i d => x ← g i; wr d i x) d2).
Proof.
  intros Ha. eapply rel_mono; [|apply (rel_loop (fun k x y => agree m (fun i => i < k \/ Q i) x y))].
  - intros x y Hx. exact Hx.
  - intros k s1 s2 Hk Hs. cbv beta. same. eapply rel_mono; [|apply rel_wr, Hs]. intros u w [_ Hu]. revert Hu. apply agree_mono. intros i _ [Hi|Hi]; [|right; by right].
    destruct (decide (i = k)); [by left|]. right; left. lia.
  - revert Ha. apply agree_mono. intros i _ [Hi|Hi]; [lia|done].
Qed.
Lemma rel_convolve_function {P} (zero : P) add mul (f : A -> P) ratio n (data d1 d2 : list P) : length d1 = length d2 ->
  rel (fun x y => x = y /\ length x = length d1) (convolve_function_points zero add mul f ratio n data d1) (convolve_function_points zero add mul f ratio n data d2).
Proof.
  intros Hd. unfold convolve_function_points. cbv zeta. set (cl := if length data <? n then length data else n). rewrite <- Hd.
  eapply rel_mono; [|apply (rel_loop (fun k x y => agree (length d1) (fun i => i < k) x y))].
  - intros x y Hx. cbv beta in Hx. split; [|by destruct Hx]. apply (agree_eq _ _ _ _ Hx). intros i Hi. lia.
  - intros k s1 s2 Hk Hs. cbv beta. same. same. eapply rel_mono; [|apply rel_wr, Hs]. intros u w [_ Hu]. revert Hu. apply agree_mono. intros i _ Hi. lia.
  - split_and!; [done|done|]. intros i _ Hi. lia.
Qed.
Lemma rel_convolve_scalar s sched b1 b2 (v o : dvec A) : alike b1 b2 -> rel same_vb (convolve_signal_scalar s sched b1 v o) (convolve_signal_scalar s sched b2 v o).
Proof.
  intros Hb. unfold convolve_signal_scalar. destruct (is_complex v); (eapply rel_into_buffer; [done|intros; by (apply convert_complex || apply convert_reals)|]).
  - intros data d1 d2 H1 H2. same. same. same. rewrite <- H1. apply rel_convolve_points. lia.
  - intros data d1 d2 H1 H2. same. same. rewrite <- H1. apply rel_convolve_points. lia.
Qed.
Lemma rel_convolve_function_real f ratio n b1 b2 (v : dvec A) : alike b1 b2 -> rel same_vb (convolve_function_real f ratio n b1 v) (convolve_function_real f ratio n b2 v).
Proof.
  intros Hb. unfold convolve_function_real. eapply rel_into_buffer; [done|intros; by apply convert_reals|]. intros data d1 d2 H1 H2. rewrite <- H1. apply rel_convolve_function. lia.
Qed.
Lemma rel_convolve_function_complex f ratio n b1 b2 (v : dvec A) : alike b1 b2 -> rel same_vb (convolve_function_complex f ratio n b1 v) (convolve_function_complex f ratio n b2 v).
Proof.
  intros Hb. unfold convolve_function_complex. eapply rel_into_buffer; [done|intros; by apply convert_complex|]. intros data d1 d2 H1 H2. rewrite <- H1. apply rel_convolve_function. lia.
Qed.
(** The middle of the target is written by threads, the edges afterwards. *)
Lemma rel_mid_and_edges {P} s sched (a : nat) (g : nat * nat -> nat -> run P) (e : nat -> run P) m (d1 d2 : list P) : length d1 = m -> length d2 = m ->
  rel (fun x y => x = y /\ length x = m)
    (upto ← usub m a; mid ← slice d1 a upto; mid ← execute_with_range Large s sched mid 1 (fun range n => elem_steps (fun i _ => g range i) n);
     dest ← splice d1 a mid; edge_update (length dest) a a (fun i _ => e i) dest)
    (upto ← usub m a; mid ← slice d2 a upto; mid ← execute_with_range Large s sched mid 1 (fun range n => elem_steps (fun i _ => g range i) n);
     dest ← splice d2 a mid; edge_update (length dest) a a (fun i _ => e i) dest).
Proof.
  intros H1 H2. apply rel_same. intros upto Eu. apply usub_eq in Eu as [Hle ->]. pose proof (agree_none _ _ _ (conj H1 H2)) as Ha.
  eapply rel_bind; [apply rel_slice, Ha|]. intros m1 m2 [Hb (L1 & L2 & _)]. eapply rel_bind; [apply rel_execute; [lia|lia]|]. intros x ? [<- Hx]. rewrite L1 in Hx.
  eapply rel_bind; [apply (rel_splice m (m - a - a) _ (fun _ => True) d1 d2 a x x Ha); by split_and!|]. intros y1 y2 [_ Hy].
  destruct Hy as (Y1 & Y2 & Hy). rewrite Y1, Y2. eapply rel_mono; [|apply rel_edges; [lia|exact (conj Y1 (conj Y2 Hy))]].
  intros u w Hu. split; [|by destruct Hu]. apply (agree_eq _ _ _ _ Hu). intros i Hi. destruct (Nat.leb_spec a i), (Nat.ltb_spec i (a + (m - a - a))); cbn [andb]; try lia.
Qed.
Lemma rel_convolve_simd r addr s sched b1 b2 (v o : dvec A) : alike b1 b2 -> rel same_vb (convolve_signal_simd r addr s sched b1 v o) (convolve_signal_simd r addr s sched b2 v o).
Proof.
  intros Hb. unfold convolve_signal_simd.
  destruct (is_complex v) eqn:Hc; unfold convolve_signal_simd_impl; cbv zeta; same; (eapply rel_into_buffer; [done|intros; by (apply convert_complex || apply convert_reals)|]);
    intros data d1 d2 Hd1 Hd2; same; same; same; same; same; same; apply rel_same; intros [from to] _; same; same.
  - assert (Hp : points v = len v / 2) by (unfold points; by rewrite Hc). rewrite Hp. apply rel_mid_and_edges; done.
  - assert (Hp : points v = len v) by (unfold points; by rewrite Hc, Nat.div_1_r). rewrite Hp. apply rel_mid_and_edges; done.
Qed.
End convolutions.

Section overlap.
Context {A : Type} `{Num A} `{Flt A} `{Rem A} `{Trig A} `{F : Fft A}.

Lemma rel_padded (f k : nat) (p1 p2 : list A) (P : nat -> Prop) : agree (2 * f) P p1 p2 -> (forall i, i < 2 * k -> P i) -> k <= f ->
  zero_pad n0 (set_valid_len (DVec (Storage KSliceMut (2 * f) p1) n1 DTime NComplex (2 * f)) (2 * k)) f End =
  zero_pad n0 (set_valid_len (DVec (Storage KSliceMut (2 * f) p2) n1 DTime NComplex (2 * f)) (2 * k)) f End \/
  exists v1 v2, zero_pad n0 (set_valid_len (DVec (Storage KSliceMut (2 * f) p1) n1 DTime NComplex (2 * f)) (2 * k)) f End = Done (v1, Err InvalidArgumentLength) /\
    zero_pad n0 (set_valid_len (DVec (Storage KSliceMut (2 * f) p2) n1 DTime NComplex (2 * f)) (2 * k)) f End = Done (v2, Err InvalidArgumentLength).
Proof.
  intros Ha HP Hk. unfold zero_pad. cbv zeta. cbn [is_complex set_valid_len number_space ns_is_complex len valid_len].
  destruct (Nat.leb_spec (f * 2) (2 * k)); [right; by eexists _, _|left].
  assert (Hr : forall p : list A, length p = 2 * f -> Model_Vec.resize n0 (set_valid_len (DVec (Storage KSliceMut (2 * f) p) n1 DTime NComplex (2 * f)) (2 * k)) (f * 2) =
    (set_valid_len (DVec (Storage KSliceMut (2 * f) p) n1 DTime NComplex (2 * f)) (f * 2), Ok tt)).
  { intros p Hp. unfold Model_Vec.resize. cbn [is_complex set_valid_len number_space ns_is_complex andb].
    rewrite Nat.odd_mul, andb_false_r. match goal with |- context [alloc_len ?w] => change (alloc_len w) with (length p) end. rewrite Hp. destruct (Nat.ltb_spec (2 * f) (f * 2)); [lia|done]. }
  rewrite !Hr by apply Ha. apply rel_eq. apply (rel_bind eq).
  - eapply rel_mono; [|apply rel_memzero, Ha]. intros x y [_ Hx]. apply (agree_eq _ _ _ _ Hx). intros i Hi. destruct (decide (i < 2 * k)); [right; by apply HP|left; lia].
  - intros x ? <-. done.
Qed.

Lemma rel_scalar_part (signal filter : list (A * A)) imp count position m Q l1 l2 : agree m Q l1 l2 ->
  rel (fun x y => agree m (fun i => i < count \/ Q i) x y) (scalar_part signal filter imp count position l1) (scalar_part signal filter imp count position l2).
Proof. intros Ha. unfold scalar_part. by apply (rel_fill (fun i => convolve_iteration (n0, n0) cadd cmul signal filter (position + i) ((imp + 1) / 2) imp)). Qed.
Lemma overlap_block_ext f st sc (fl : list (A * A)) p before a1 a2 s : (forall s, a1 s = a2 s) -> overlap_block f st sc fl p before a1 s = overlap_block f st sc fl p before a2 s.
Proof.
  intros Ha. apply rel_eq. unfold overlap_block. same. same. same. same. rewrite Ha. same. done.
Qed.
Lemma rel_overlap b1 b2 (v o : dvec A) n : alike b1 b2 -> rel same_vbr (overlap_discard b1 v o n) (overlap_discard b2 v o n).
Proof.
  intros Hb. unfold overlap_discard. destruct (negb _); [done|]. destruct (meta_disagree _ _); [done|]. cbv zeta.
  apply rel_same. intros ov Eov. apply rel_same. intros mf Emf. set (f := if mf <? n then n else mf). apply rel_same. intros stp Est.
  set (sl := 2 * Nat.max _ _). apply rel_same. intros xm Exm. apply rel_same. intros rl Erl.
  eapply rel_bind; [by apply rel_borrow|]. intros T1 T2 HT. pose proof (agree_none _ _ _ HT) as Ha.
  eapply rel_bind; [apply rel_slice, Ha|]. intros tmp1 tmp2 [_ Htmp]. eapply rel_bind; [apply rel_slice, Ha|]. intros p1 p2 [_ Hp]. eapply rel_bind; [apply rel_slice, Ha|]. intros e1 e2 [_ He].
  apply rel_same. intros src _. eapply rel_bind; [apply rel_copy, Hp|]. intros q1 q2 [Hq0 Hq].
  match type of Htmp with agree ?k _ _ _ => replace k with (2 * f) in Htmp by lia end.
  match type of Hq with agree ?k _ _ _ => replace k with (2 * f) in Hq, Hq0 by lia end.
  match type of He with agree ?k _ _ _ => replace k with rl in He by lia end.
  assert (Hcon : forall q : list A, length q = 2 * f -> construct ToComplexTime (Storage KSliceMut (length q) q) = Done (DVec (Storage KSliceMut (2 * f) q) n1 DTime NComplex (2 * f))).
  { intros q Hl. unfold construct. unfold s_len. cbn [s_elems s_kind]. rewrite Hl. rewrite Nat.even_mul. done. }
  rewrite (Hcon q1) by apply Hq. rewrite (Hcon q2) by apply Hq. rewrite !bind_Done.
  assert (Hr : forall p : list A, length p = 2 * f -> Model_Vec.resize n0 (DVec (Storage KSliceMut (2 * f) p) n1 DTime NComplex (2 * f)) (2 * points o) =
    (set_valid_len (DVec (Storage KSliceMut (2 * f) p) n1 DTime NComplex (2 * f)) (2 * points o), Ok tt)).
  { intros p Hl. unfold Model_Vec.resize. cbn [is_complex set_valid_len number_space ns_is_complex andb].
    rewrite Nat.odd_mul. cbn [Nat.odd Nat.even negb andb]. match goal with |- context [alloc_len ?w] => change (alloc_len w) with (length p) end. rewrite Hl.
    destruct (Nat.ltb_spec (2 * f) (2 * points o)); [lia|done]. }
  rewrite (Hr q1) by apply Hq. rewrite (Hr q2) by apply Hq.
  destruct (rel_padded f (points o) q1 q2 _ Hq) as [->|(v1 & v2 & -> & ->)]; [intros i Hi; left; lia|lia| |done].
  apply rel_same. intros [w res] _. destruct res as [[]|]; [|done].
  apply rel_same. intros filter _. same. apply rel_same. intros padded _. same. apply rel_same. intros signal _.
  eapply rel_bind; [apply rel_to_complex, Htmp|]. intros tm1 tm2 [_ Htm]. eapply rel_bind; [apply rel_to_complex, He|]. intros en1 en2 [_ Hen].
  eapply rel_bind; [apply rel_scalar_part, Htm|]. intros tn1 tn2 Htn.
  assert (Hle : length en1 = length en2) by (by destruct Hen as (-> & -> & _)). rewrite <- Hle. apply rel_same. intros position _.
  eapply rel_bind; [apply rel_scalar_part, Hen|]. intros eo1 eo2 Heo.
  assert (eo1 = eo2) as -> by (apply (agree_eq _ _ _ _ Heo); intros i Hi; by left).
  assert (Hs : slice tn1 0 (points o / 2) = slice tn2 0 (points o / 2)).
  { apply rel_eq. eapply rel_mono; [|apply rel_slice, Htn]. intros ? ? [_ Hx]. apply (agree_eq _ _ _ _ Hx). intros i Hi. left. lia. }
  rewrite (overlap_block_ext _ _ _ _ _ _ _ (fun signal => src ← slice tn2 0 (points o / 2); copy_into signal 0 (points o / 2) src)) by (intros; by rewrite Hs).
  apply rel_same. intros [[sg ob] tp] _. apply rel_same. intros [[[ps sg'] ob'] tp'] _. same. same. same. same. same. same.
  split; [split; [done|]|done]. by apply give_back_alike.
Qed.
Lemma rel_convolve_signal r addr s sched b1 b2 (v o : dvec A) : alike b1 b2 -> rel same_vbr (convolve_signal r addr s sched b1 v o) (convolve_signal r addr s sched b2 v o).
Proof.
  intros Hb. unfold convolve_signal. destruct (meta_disagree _ _); [done|]. destruct (negb _); [done|]. destruct (points v <? points o); [done|].
  destruct (_ && _ && _); [vb ltac:(by apply rel_convolve_simd); done|]. destruct (_ && _ && _ && _).
  - same. by apply rel_overlap.
  - vb ltac:(by apply rel_convolve_scalar). done.
Qed.
Lemma rel_convolve_real_response round to_usize fits f ratio n r addr s sched b1 b2 (v : dvec A) : alike b1 b2 ->
  rel same_vb (convolve_real_response round to_usize fits f ratio n r addr s sched b1 v) (convolve_real_response round to_usize fits f ratio n r addr s sched b2 v).
Proof.
  intros Hb. unfold convolve_real_response. destruct (negb _); [done|]. cbv zeta. same. destruct (_ && fits _).
  - apply rel_same. intros [[i j] l] _. vbr ltac:(by apply rel_convolve_signal). destruct e as [[]|]; done.
  - destruct (is_complex v); [by apply rel_convolve_function_complex|by apply rel_convolve_function_real].
Qed.
Lemma rel_convolve_complex_response round to_usize fits f ratio n r addr s sched b1 b2 (v : dvec A) : alike b1 b2 ->
  rel same_vb (convolve_complex_response round to_usize fits f ratio n r addr s sched b1 v) (convolve_complex_response round to_usize fits f ratio n r addr s sched b2 v).
Proof.
  intros Hb. unfold convolve_complex_response. destruct (negb _); [done|]. destruct (negb _); [done|]. cbv zeta. same. destruct (_ && fits _).
  - apply rel_same. intros [[i j] l] _. vbr ltac:(by apply rel_convolve_signal). destruct e as [[]|]; done.
  - by apply rel_convolve_function_complex.
Qed.
End overlap.
