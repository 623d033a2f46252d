From Verif Require Import Proof_StatsOps Proof_Dot Spec_Prec Proof_Prec Proof_PrecOps Proof_PrecDot Proof_Base.
From stdpp Require Import list_numbers tactics.
From Coq Require Import Lia.
Local Open Scope nat_scope.

Lemma not_too_many_regs {Q} u (l : list Q) k n : not_too_many u l -> k * n <= length l -> 0 < n -> (INR k * u <= / 64)%R.
Proof.
  intros [Hu Hn] Hk Hp. refine (Rle_trans _ _ _ _ Hn). apply Rmult_le_compat_r; [lra|]. apply le_INR. nia.
Qed.
Lemma zip_app3 {Q} (f : Q -> Q -> Q) (L C R L' C' R' : list Q) : length L = length L' -> length C = length C' ->
  zip_with f (L ++ C ++ R) (L' ++ C' ++ R') = zip_with f L L' ++ zip_with f C C' ++ zip_with f R R'.
Proof. intros H1 H2. by rewrite !zip_with_app. Qed.
Lemma parts_perm {Q} (L C R : list Q) : C ++ (L ++ R) ≡ₚ L ++ C ++ R.
Proof. rewrite !app_assoc. apply Permutation_app_tail, Permutation_app_comm. Qed.

Lemma pairs_of_lanes {A} (K : nat -> A) m i : pairs_of (map K (seq (2 * i) (2 * m))) = map (fun j => (K (2 * j), K (2 * j + 1))) (seq i m).
Proof.
  revert i. induction m as [|m IH]; intros i; [done|]. replace (2 * S m) with (S (S (2 * m))) by lia. cbn [seq map pairs_of].
  replace (S (2 * i)) with (2 * i + 1) by lia. f_equal. replace (S (2 * i + 1)) with (2 * S i) by lia. apply IH.
Qed.
Lemma pairs_of_lanes0 {A} (K : nat -> A) m : pairs_of (map K (seq 0 (2 * m))) = map (fun j => (K (2 * j), K (2 * j + 1))) (seq 0 m).
Proof. apply (pairs_of_lanes K m 0). Qed.
Lemma reg_sum_pairs {A} `{Num A} (l : list (A * A)) : reg_sum (n0, n0) cadd l = (reg_sum n0 nadd (map fst l), reg_sum n0 nadd (map snd l)).
Proof.
  destruct l as [|[x y] l]; [done|]. cbn [reg_sum map fst snd]. revert x y. induction l as [|[x' y'] l IH]; intros x y; [done|].
  cbn [foldl map fst snd]. unfold cadd at 2. cbn [fst snd]. apply IH.
Qed.
Lemma fold_pairs {A} `{Num A} x y (l : list (A * A)) : foldl cadd (x, y) l = (foldl nadd x (map fst l), foldl nadd y (map snd l)).
Proof. revert x y. induction l as [|[x' y'] l IH]; intros x y; [done|]. cbn [foldl map fst snd]. unfold cadd at 2. cbn [fst snd]. apply IH. Qed.

Section dot.
Context {A : Type} `{Num A} (val : A -> R) (usual : A -> Prop) (u : R) (HR : rounds val usual u).

Lemma real_dot_within r addr s order (v o : dvec A) l lo rest :
  reg_ok r -> reg_len r <= 16 -> elem_aligned r addr -> reals v l -> vdata o = Done (lo ++ rest) -> length lo = length l -> simd_fits r addr (length l) ->
  not_too_many u l -> (forall x, x ∈ zip_with nmul l lo -> usual x) ->
  exists x, dot_product_prec r addr s order v o = Done (Ok x) /\ usual x /\ within u (7 + 9 / 4 * INR (reg_len r)) (map val (zip_with nmul l lo)) (val x).
Proof.
  intros Hr H16 Ha [Hc Hv] Ho Hll Hf Hmany Hx. assert (Hw : 0 < reg_len r) by (by destruct Hr as (_ & ? & _)). pose proof (proj1 Hmany) as Hu.
  destruct (vdata_split v l Hv) as (vrest & He & Hn). unfold dot_product_prec, dot_real. rewrite Hc.
  rewrite (vdata_slice v l Hv), bind_Done.
  destruct (alignment_parts r addr (length l) Hr Ha Hf) as
    (part & from & to & nl & nc & nr & Hpart & Hcr & Hsum & Hfrom & Hal & Hm & _ & Hnr & _ & Hcut & _).
  assert (Hfew := few_edges r addr (length l) part nl nc nr Hr Ha Hpart Hsum Hnr (fun B L C R rest HL HC HR => proj2 (Hcut B L C R rest HL HC HR))).
  rewrite Hpart, bind_Done, Ho, bind_Done, Hcr, bind_Done. destruct (cut3 l nl nc nr Hsum) as (L & C & Rr & -> & HL & HC & HRr).
  destruct (cut3 lo nl nc nr ltac:(congruence)) as (OL & OC & OR & -> & HOL & HOC & HOR).
  destruct (Hcut A L C Rr vrest HL HC HRr) as [Hs Hedge]. rewrite He, <- !app_assoc, Hs.
  destruct (Hcut A OL OC OR rest HOL HOC HOR) as [Hos Hoedge]. rewrite Hos, !bind_Done, get_zipped_small.
  rewrite zip_app3 in Hx |- * by congruence.
  assert (Hels : forall x, x ∈ zip_with nmul (L ++ Rr) (OL ++ OR) -> usual x).
  { intros x Hin. apply Hx. rewrite zip_with_app in Hin by congruence. rewrite !elem_of_app in *. tauto. }
  assert (Hlen : length (zip_with nmul (L ++ Rr) (OL ++ OR)) = nl + nr) by (rewrite zip_with_length, !app_length; lia).
  assert (Hk : (INR (nl + nr) <= 2 * INR (reg_len r))%R) by (change 2%R with (INR 2); rewrite <- mult_INR; apply le_INR; lia).
  assert (H16' : (INR (reg_len r) <= 16)%R) by (replace 16%R with (INR 16) by (cbn; lra); apply le_INR; lia).
  destruct (few_within val usual u HR (zip_with nmul (L ++ Rr) (OL ++ OR)) Hu) as [Ue We]; [rewrite Hlen; lra|exact Hels|].
  rewrite Hlen in We.
  assert (Hfin : forall chunk, usual chunk -> within u (45 / 8 + 9 / 8 * INR (reg_len r)) (map val (zip_with nmul C OC)) (val chunk) ->
    let x := (chunk + foldl nadd n0 (zip_with nmul (L ++ Rr) (OL ++ OR)))%num in
    usual x /\ within u (7 + 9 / 4 * INR (reg_len r)) (map val (zip_with nmul L OL ++ zip_with nmul C OC ++ zip_with nmul Rr OR)) (val x)).
  { intros chunk Uc Wc. apply (assembled_within val usual u HR chunk _ n0 (nl + nr) (reg_len r) (map val (zip_with nmul C OC)) (map val (zip_with nmul (L ++ Rr) (OL ++ OR)))); try done.
    rewrite <- map_app. apply Permutation_map. rewrite zip_with_app by congruence. apply parts_perm. }
  destruct OC as [|z OC0] eqn:EC.
  - assert (C = []) as -> by (apply nil_length_inv; simpl in HOC; lia).
    rewrite bind_Done, Hedge, !bind_Done, Hoedge, bind_Done, (zip_fold nadd nmul). cbn [foldl]. eexists. split; [reflexivity|].
    apply Hfin; [apply (r_zero _ _ _ HR)|apply (within_zero val usual u HR)].
  - rewrite <- EC in *. assert (Hne : nc <> 0) by (subst OC; simpl in HOC; lia).
    destruct (dot_worker_regs (fun b => b) (zip_with nmul) reg_sum_real (reg_bin nmul) kahan_total r (addr + from * elem_size r) C OC) as (prods & -> & Hpk & Hpl & Hps).
    { done. } { by rewrite HC. } { auto. } { congruence. } { done. }
    { intros a b a' b' Hla Hlb. by rewrite zip_with_app by congruence. }
    { intros a b Hla Hlb. split; [|done]. unfold reg_bin. rewrite zip_with_length. lia. }
    rewrite !bind_Done, Hedge, !bind_Done, Hoedge, bind_Done, (zip_fold nadd nmul). cbn [foldl]. rewrite (kahan_lanes r prods Hpl). unfold reg_sum_real.
    eexists. split; [reflexivity|]. rewrite map_id in Hps.
    assert (Hitems : concat (map (fun b => map (fun j => nth j b n0) (seq 0 (reg_len r))) prods) = zip_with nmul C OC).
    { rewrite <- Hps. f_equal. rewrite <- (map_id prods) at 2. apply map_ext_in. intros b Hb. rewrite <- (Hpl b) by (by apply elem_of_list_In). apply map_nth_seq. }
    destruct (picked_within val usual u HR (reg_len r) prods (seq 0 (reg_len r)) (zip_with nmul C OC) Hu) as [Uc Wc].
    { apply (not_too_many_regs u _ (length prods) (reg_len r) Hmany); [|done]. rewrite Hpk, !app_length. lia. }
    { by rewrite seq_length. }
    { exact Hpl. }
    { intros j Hj. apply elem_of_seq in Hj. lia. }
    { exact Hitems. }
    { intros x Hin. apply Hx. rewrite !elem_of_app. auto. }
    rewrite seq_length in Wc. exact (Hfin _ Uc Wc).
Qed.

Lemma cplx_dot_within r addr s order (v o : dvec A) c co crest :
  reg_ok r -> reg_len r <= 16 -> elem_aligned r addr -> cplx v c -> cplx o (co ++ crest) -> length co = length c -> vdomain v = vdomain o ->
  whole_points v -> address_ok r addr v -> not_too_many u c ->
  (forall x, x ∈ zip_with cmul c co -> usual (fst x) /\ usual (snd x)) ->
  exists x, dot_product_prec_complex r addr s order v o = Done (Ok x) /\
    within u (7 + 9 / 4 * INR (reg_len r)) (map (fun y => val (fst y)) (zip_with cmul c co)) (val (fst x)) /\
    within u (7 + 9 / 4 * INR (reg_len r)) (map (fun y => val (snd y)) (zip_with cmul c co)) (val (snd x)).
Proof.
  intros Hr H16 Ha Hvc [Hoc Ho] Hll Hdom Hw Hok Hmany Hx. pose proof (address_ok_cplx r addr v c Hvc Hok) as Hf. destruct Hvc as [Hc Hv].
  pose proof (proj1 Hmany) as Hu.
  destruct (vdata_split v _ Hv) as (rest & He & Hn). unfold dot_product_prec_complex, dot_complex. rewrite Hc, Hoc, Hdom. cbn [negb orb].
  assert (Hdd : ddomain_eqb (vdomain o) (vdomain o) = true) by (by destruct (vdomain o)). rewrite Hdd. cbn [negb].
  assert (Hrev : Nat.even (length rest) = true).
  { specialize (Hw Hc). unfold alloc_len, s_len in Hw. fold (elems v) in Hw. rewrite He, app_length, complex_to_array_length in Hw.
    by rewrite Nat.even_add, even_double in Hw; destruct (Nat.even (length rest)). }
  destruct (exists_complex rest Hrev) as [vrest ->].
  rewrite (vdata_slice v _ Hv), bind_Done, complex_to_array_length.
  assert (Hwl : 0 < reg_len r) by (by destruct Hr as (_ & ? & _)). assert (Hev : Nat.even (reg_len r) = true) by (by destruct Hr as (_ & _ & ?)).
  assert (Hsf : simd_fits r addr (2 * length c)) by (destruct Hf as [[? _]|?]; [by left | by right]).
  destruct (alignment_parts r addr (2 * length c) Hr Ha Hsf) as
    (part & from & to & nl & nc & nr & Hpart & Hcr & Hsum & Hfrom & Hal & Hm & Hpar & Hnr & Hbig & Hcut & Hccut).
  assert (Hfew := few_edges r addr (2 * length c) part nl nc nr Hr Ha Hpart Hsum Hnr (fun B L C R rest HL HC HR => proj2 (Hcut B L C R rest HL HC HR))).
  assert (Heven : Nat.even nl = true /\ Nat.even nr = true).
  { destruct (decide (nc = 0)) as [E0|Hnc].
    - specialize (Hnr E0). subst nc nr. split; [|done]. rewrite !Nat.add_0_r in Hsum. rewrite Hsum. apply even_double.
    - destruct Hf as [[_ Hp]|Hlt]; [apply Hpar; [done | apply even_double]|]. specialize (Hbig Hnc). lia. }
  rewrite Hpart, bind_Done, Ho, bind_Done, Hcr, bind_Done.
  destruct Heven as [Hel Her]. apply Nat.even_spec in Hel as [ml Hml], Her as [mr Hmr].
  assert (Hmc : exists mc, nc = 2 * mc) by (exists (length c - ml - mr); clear -Hsum Hml Hmr; lia). destruct Hmc as [mc Hmc].
  destruct (cut3 c ml mc mr ltac:(clear -Hsum Hml Hmr Hmc; lia)) as (L & C & Rr & -> & HL & HC & HRr).
  destruct (cut3 co ml mc mr ltac:(clear -Hll HL HC HRr; rewrite Hll, !app_length; lia)) as (OL & OC & OR & -> & HOL & HOC & HOR).
  destruct (Hcut A (complex_to_array L) (complex_to_array C) (complex_to_array Rr) (complex_to_array vrest)) as [Hs _];
    try (rewrite complex_to_array_length; clear -HL HC HRr Hml Hmc Hmr; lia).
  destruct (Hcut A (complex_to_array OL) (complex_to_array OC) (complex_to_array OR) (complex_to_array crest)) as [Hos _];
    try (rewrite complex_to_array_length; clear -HOL HOC HOR Hml Hmc Hmr; lia).
  assert (Hedge := Hccut (A * A)%type L C Rr vrest ltac:(clear -HL Hml; lia) ltac:(clear -HC Hmc; lia) ltac:(clear -HRr Hmr; lia)).
  assert (Hoedge := Hccut (A * A)%type OL OC OR crest ltac:(clear -HOL Hml; lia) ltac:(clear -HOC Hmc; lia) ltac:(clear -HOR Hmr; lia)).
  rewrite He. rewrite <- complex_to_array_app, !array_to_complex_Done, <- !app_assoc.
  rewrite !complex_to_array_app. rewrite Hs, Hos, !bind_Done, get_zipped_small.
  rewrite zip_app3 in Hx |- * by congruence.
  apply Nat.even_spec in Hev as [h Hh].
  assert (Hels : forall x, x ∈ zip_with cmul (L ++ Rr) (OL ++ OR) -> usual (fst x) /\ usual (snd x)).
  { intros x Hin. apply Hx. rewrite zip_with_app in Hin by congruence. rewrite !elem_of_app in *. tauto. }
  set (edges := zip_with cmul (L ++ Rr) (OL ++ OR)) in *. set (cps := zip_with cmul C OC) in *.
  assert (Hlen : length edges = ml + mr) by (unfold edges; rewrite zip_with_length, !app_length; clear -HL HRr HOL HOR; lia).
  assert (Hfew' : ml + mr < 2 * h) by (clear -Hfew Hml Hmr Hh; lia).
  assert (H16' : (2 * INR h <= 16)%R). { replace 16%R with (INR 16) by (cbn; lra). change 2%R with (INR 2). rewrite <- mult_INR. apply le_INR. clear -H16 Hh. lia. }
  assert (Hk : (INR (ml + mr) <= 2 * INR h)%R) by (change 2%R with (INR 2); rewrite <- mult_INR; apply le_INR; clear -Hfew'; lia).
  assert (Hall : forall p : A * A -> R, map p cps ++ map p edges ≡ₚ map p (zip_with cmul L OL ++ cps ++ zip_with cmul Rr OR)).
  { intros p. rewrite <- map_app. apply Permutation_map. unfold edges. rewrite zip_with_app by congruence. apply parts_perm. }
  assert (Hpart1 : forall (p : A * A -> A) chunk, (forall x, x ∈ zip_with cmul L OL ++ cps ++ zip_with cmul Rr OR -> usual (p x)) ->
    usual chunk -> within u (45 / 8 + 9 / 8 * INR h) (map val (map p cps)) (val chunk) ->
    within u (7 + 9 / 4 * INR (reg_len r)) (map (fun y => val (p y)) (zip_with cmul L OL ++ cps ++ zip_with cmul Rr OR)) (val (chunk + foldl nadd n0 (map p edges))%num)).
  { intros p chunk Up Uc Wc.
    destruct (few_within val usual u HR (map p edges) Hu) as [Ue We].
    { rewrite map_length, Hlen. lra. }
    { intros x (y & -> & Hy)%elem_of_list_fmap. apply Up. unfold edges in Hy. rewrite zip_with_app in Hy by congruence. rewrite !elem_of_app in *. tauto. }
    rewrite map_length, Hlen in We.
    destruct (assembled_within val usual u HR chunk _ n0 (ml + mr) h _ _ (map (fun y => val (p y)) (zip_with cmul L OL ++ cps ++ zip_with cmul Rr OR)) Hu
      ltac:(clear -H16 Hh Hwl; lia) Hfew' Uc Wc Ue We) as [_ W].
    { rewrite !map_map. apply Hall. }
    refine (within_le u _ _ _ _ _ _ W); [lra|]. rewrite Hh, mult_INR. change (INR 2) with 2%R. pose proof (pos_INR h). lra. }
  destruct OC as [|z OC0] eqn:EC.
  - assert (C = []) as -> by (apply nil_length_inv; simpl in HOC; lia). cbn [complex_to_array].
    rewrite !bind_Done, Hedge, !bind_Done, Hoedge, bind_Done, (zip_fold cadd cmul). fold edges. cbn [foldl]. rewrite fold_pairs. unfold cadd. cbn [fst snd].
    eexists. split; [reflexivity|]. cbn [fst snd].
    split; (apply Hpart1; [intros x Hin; apply Hx; exact Hin|apply (r_zero _ _ _ HR)|apply (within_zero val usual u HR)]).
  - destruct (complex_to_array (z :: OC0)) as [|y l0] eqn:El; [by destruct z|]. rewrite <- El, <- EC in *. clear El y l0.
    assert (Hne : nc <> 0) by (subst OC; simpl in HOC; lia).
    destruct (dot_worker_regs (fun b => pairs_of b) (fun a b => zip_with cmul (pairs_of a) (pairs_of b)) reg_sum_complex (reg_cbin cmul) kahan_total r (addr + from * elem_size r)
      (complex_to_array C) (complex_to_array OC)) as (prods & -> & Hpk & Hpl & Hps).
    { done. } { by rewrite complex_to_array_length, HC, <- Hmc. } { auto. } { rewrite !complex_to_array_length. congruence. } { done. }
    { intros a b a' b' Hla Hlb. rewrite !pairs_of_app_even by (rewrite ?Hla, ?Hlb, Hh; apply even_double). apply zip_with_app. rewrite !pairs_of_length. congruence. }
    { intros a b Hla Hlb. unfold reg_cbin.
      rewrite complex_to_array_length, zip_with_length, !pairs_of_length, pairs_of_complex_to_array, Hla, Hlb. split; [|done]. rewrite Hh, Proof_SimdOps.div2_double. lia. }
    rewrite !bind_Done, Hedge, !bind_Done, Hoedge, bind_Done, (zip_fold cadd cmul). fold edges. cbn [foldl]. rewrite (kahan_lanes r prods Hpl). unfold reg_sum_complex.
    rewrite Hh. rewrite pairs_of_lanes0, reg_sum_pairs, !map_map, fold_pairs. cbn [fst snd]. unfold cadd. cbn [fst snd].
    eexists. split; [reflexivity|]. cbn [fst snd].
    rewrite !pairs_of_complex_to_array in Hps. assert (Hps' : concat (map (fun b => pairs_of b) prods) = cps) by (unfold cps; rewrite <- EC; exact Hps).
    assert (Hpk' : (INR (length prods) * u <= / 64)%R).
    { apply (not_too_many_regs u _ (length prods) h Hmany); [|clear -Hwl Hh; lia]. rewrite complex_to_array_length, Hh in Hpk. rewrite !app_length. clear -Hpk. lia. }
    assert (Hpick : forall (f : nat -> nat) (p : A * A -> A) , (forall j, f j = 2 * j + f 0) -> f 0 <= 1 -> (forall a b : A, p (a, b) = nth (f 0) [a; b] n0) ->
      concat (map (fun b => map (fun j => nth j b n0) (map f (seq 0 h))) prods) = map p cps).
    { intros f p Hfj Hf1 Hp. rewrite <- Hps', concat_map_map, map_map. f_equal. apply map_ext_in. intros b Hb. specialize (Hpl b (proj2 (elem_of_list_In _ _) Hb)).
      rewrite Hh in Hpl. rewrite map_map. clear -Hpl Hfj Hf1 Hp. revert b Hpl.
      assert (G : forall i b pre, length b = 2 * h -> length pre = 2 * i -> map (fun j => nth (f j) (pre ++ b) n0) (seq i h) = map p (pairs_of b)).
      { induction h as [|h IH]; intros i b pre Hb Hpre.
        - apply nil_length_inv in Hb as ->. done.
        - destruct b as [|x [|y b]]; try (cbn [length] in Hb; lia). cbn [seq map pairs_of]. f_equal.
          + rewrite Hfj, app_nth2, Hpre, Hp by lia. replace (2 * i + f 0 - 2 * i) with (f 0) by lia. destruct (f 0) as [|[|]] eqn:E0; [done|done|lia].
          + replace (pre ++ x :: y :: b) with ((pre ++ [x; y]) ++ b) by (by rewrite <- app_assoc). apply IH; [cbn [length] in Hb; lia|rewrite app_length; cbn [length]; lia]. }
      intros b Hb. apply (G 0 b []); done. }
    assert (Hhalf : forall (f : nat -> nat) (p : A * A -> A), (forall j, f j = 2 * j + f 0) -> f 0 <= 1 -> (forall a b : A, p (a, b) = nth (f 0) [a; b] n0) ->
      (forall x, x ∈ zip_with cmul L OL ++ cps ++ zip_with cmul Rr OR -> usual (p x)) ->
      let chunk := (n0 + reg_sum n0 nadd (map (fun j => kahan_sum n0 nadd nsub (lane (f j) prods)) (seq 0 h)))%num in
      within u (7 + 9 / 4 * INR (reg_len r)) (map (fun y => val (p y)) (zip_with cmul L OL ++ cps ++ zip_with cmul Rr OR)) (val (chunk + foldl nadd n0 (map p edges))%num)).
    { intros f p Hfj Hf1 Hp Up chunk.
      destruct (picked_within val usual u HR (reg_len r) prods (map f (seq 0 h)) (map p cps) Hu Hpk') as [Uc Wc].
      { rewrite map_length, seq_length. clear -H16 Hh. lia. }
      { exact Hpl. }
      { intros j (i & -> & Hi)%elem_of_list_fmap. apply elem_of_seq in Hi. rewrite Hfj, Hh. clear -Hi Hf1. lia. }
      { exact (Hpick f p Hfj Hf1 Hp). }
      { intros x (y & -> & Hy)%elem_of_list_fmap. apply Up. rewrite !elem_of_app. auto. }
      rewrite map_length, seq_length in Wc. rewrite (map_map f (fun j => kahan_sum n0 nadd nsub (lane j prods))) in Uc, Wc. exact (Hpart1 p chunk Up Uc Wc). }
    rewrite <- Hh. split.
    + apply (Hhalf (fun j => 2 * j) fst); [intros; lia|lia|done|]. intros x Hin. exact (proj1 (Hx x Hin)).
    + apply (Hhalf (fun j => 2 * j + 1) snd); [intros; lia|lia|done|]. intros x Hin. exact (proj2 (Hx x Hin)).
Qed.
End dot.
