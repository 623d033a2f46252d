From Verif Require Import Proof_StatsOps Proof_Dot Spec_Prec Proof_Prec Proof_PrecOps.
From stdpp Require Import list_numbers tactics.
From Coq Require Import Lia.
Local Open Scope nat_scope.

(** ** Lanes *)
(** Number [j] of every register *)
Definition lane {A} `{Num A} (j : nat) (l : list (list A)) : list A := map (fun b => nth j b n0) l.

Lemma nth_zip {A} (op : A -> A -> A) d d1 d2 j (a b : list A) : j < length a -> j < length b -> nth j (zip_with op a b) d = op (nth j a d1) (nth j b d2).
Proof.
  revert j b. induction a as [|x a IH]; intros [|j] [|y b] Ha Hb; cbn [length] in *; try lia; cbn [zip_with nth]; [done|]. apply IH; lia.
Qed.

Lemma nth_same {B} (x : B) n j : nth j (replicate n x) x = x.
Proof. revert j. induction n as [|n IH]; intros [|j]; cbn [replicate nth]; done || apply IH. Qed.

Lemma kahan_lanes {A} `{Num A} r (l : list (list A)) : (forall b, b ∈ l -> length b = reg_len r) ->
  kahan_total r l = map (fun j => kahan_sum n0 nadd nsub (lane j l)) (seq 0 (reg_len r)).
Proof.
  intros Hl. unfold kahan_total. unfold kahan_sum at 1.
  assert (G : forall l, (forall b, b ∈ l -> length b = reg_len r) ->
    let p := foldl (fun '(sum, c) n => let y := reg_bin nsub n c in let t := reg_bin nadd sum y in (t, reg_bin nsub (reg_bin nsub t sum) y)) (splat r n0, splat r n0) l in
    length (fst p) = reg_len r /\ length (snd p) = reg_len r /\
    forall j, j < reg_len r ->
      (nth j (fst p) n0, nth j (snd p) n0) = foldl (fun '(sum, c) n => let y := (n - c)%num in let t := (sum + y)%num in (t, ((t - sum) - y)%num)) (n0, n0) (lane j l)).
  { clear l Hl. induction l as [|b l IH] using rev_ind; intros Hl.
    - cbn [foldl fst snd lane map]. unfold splat. rewrite replicate_length. split_and!; [done|done|]. intros j Hj. f_equal; by apply nth_same.
    - specialize (IH (fun b' Hb => Hl b' (proj2 (elem_of_app _ _ _) (or_introl Hb)))). assert (Hb : length b = reg_len r) by (apply Hl; apply elem_of_app; right; left).
      unfold lane. rewrite foldl_app. cbn [foldl]. cbv zeta in IH |- *.
      destruct (foldl _ (splat r n0, splat r n0) l) as [sm c]. cbn [fst snd] in IH |- *. destruct IH as (L1 & L2 & IH).
      unfold reg_bin. rewrite !zip_with_length, L1, L2, Hb. split_and!; [lia|lia|]. intros j Hj. specialize (IH j Hj).
      rewrite map_app, foldl_app. cbn [map foldl]. unfold lane in IH. rewrite <- IH.
      rewrite !(nth_zip _ n0 n0 n0) by (rewrite ?zip_with_length; lia). done. }
  specialize (G l Hl). cbv zeta in G. destruct G as (L1 & _ & G). apply (List.nth_ext _ _ n0 (kahan_sum n0 nadd nsub (lane 0 l))).
  { rewrite map_length, seq_length. exact L1. }
  intros j Hj. rewrite (map_nth (fun j => kahan_sum n0 nadd nsub (lane j l))). rewrite L1 in Hj. rewrite seq_nth by done. cbn [Nat.add].
  unfold kahan_sum. rewrite <- (G j Hj). done.
Qed.

(** Reordering the numbers register by register and lane by lane *)
Lemma concat_cons_perm {B Q} (f : B -> Q) (g : B -> list Q) l : concat (map (fun j => f j :: g j) l) ≡ₚ map f l ++ concat (map g l).
Proof.
  induction l as [|j l IH]; [done|]. cbn [map concat app]. apply Permutation_skip. rewrite IH, !app_assoc. apply Permutation_app_tail, Permutation_app_comm.
Qed.
Lemma map_nth_seq {B} (d : B) (l : list B) : map (fun j => nth j l d) (seq 0 (length l)) = l.
Proof.
  apply (List.nth_ext _ _ (nth 0 l d) d); [by rewrite map_length, seq_length|]. intros j Hj. rewrite map_length, seq_length in Hj.
  rewrite (map_nth (fun j => nth j l d)). by rewrite seq_nth.
Qed.
Lemma lanes_perm {A} `{Num A} w (l : list (list A)) : (forall b, b ∈ l -> length b = w) -> concat (map (fun j => lane j l) (seq 0 w)) ≡ₚ concat l.
Proof.
  induction l as [|b l IH]; intros Hl.
  - unfold lane. cbn [map concat]. generalize (seq 0 w). intros s. induction s as [|j s IHs]; [done|]. cbn [map concat app]. exact IHs.
  - cbn [concat]. unfold lane. cbn [map]. rewrite (concat_cons_perm (fun j => nth j b n0) (fun j => map (fun b => nth j b n0) l)).
    assert (Hb : length b = w) by (apply Hl; left). rewrite <- Hb at 1. rewrite map_nth_seq. apply Permutation_app_head. apply IH. intros b' Hb'. apply Hl. by right.
Qed.

(** ** The registers of the two factors *)
Lemma dot_regs {A Q} (T : list A -> list Q) (U : list A -> list A -> list Q) reg_mul w k (orig : list A) :
  0 < w -> U [] [] = [] ->
  (forall a b a' b', length a = w -> length b = w -> U (a ++ a') (b ++ b') = U a b ++ U a' b') ->
  (forall a b, length a = w -> length b = w -> length (reg_mul a b) = w /\ T (reg_mul a b) = U a b) ->
  forall i0 fuel (C O : list A), length C = k * w -> length C <= fuel -> drop (i0 * w) orig = O -> length O = length C ->
  exists prods, all_done (imap (fun i a => b ← slice orig (0 + (i0 + i) * w) (0 + (i0 + i) * w + w); Done (reg_mul a b)) (chunks_fuel fuel w C)) = Done prods /\
    length prods = k /\ (forall b, b ∈ prods -> length b = w) /\ concat (map T prods) = U C O.
Proof.
  intros Hw HU0 HU Hmul. induction k as [|k IH]; intros i0 fuel C O Hk Hf Hd Hl.
  - apply nil_length_inv in Hk. subst C. apply nil_length_inv in Hl. exists []. destruct fuel; (split_and!; [done | done | intros b Hb; by apply elem_of_nil in Hb | rewrite Hl; symmetry; exact HU0]).
  - assert (Ht : length (take w C) = w) by (rewrite take_length; nia).
    rewrite <- (take_drop w C) in Hf |- *.
    destruct (chunks_fuel_app fuel w (take w C) (drop w C)) as (fuel' & -> & Hf'); [done | done | done|].
    cbn [imap all_done]. rewrite Nat.add_0_r, Nat.add_0_l.
    assert (HO : length orig - i0 * w = length C) by (rewrite <- Hl, <- Hd, drop_length; done).
    rewrite slice_Done by nia. rewrite !bind_Done.
    replace (i0 * w + w - i0 * w) with w by lia. rewrite Hd.
    assert (Hto : length (take w O) = w) by (rewrite take_length; nia).
    destruct (IH (i0 + 1) fuel' (drop w C) (drop w O)) as (prods & Hp & Hpk & Hpl & Hps).
    { rewrite drop_length; nia. } { done. } { rewrite <- Hd, drop_drop. f_equal. lia. } { rewrite !drop_length. lia. }
    assert (Himap : imap ((fun i a => b ← slice orig (0 + (i0 + i) * w) (0 + (i0 + i) * w + w); Done (reg_mul a b)) ∘ S) (chunks_fuel fuel' w (drop w C)) =
      imap (fun i a => b ← slice orig (0 + (i0 + 1 + i) * w) (0 + (i0 + 1 + i) * w + w); Done (reg_mul a b)) (chunks_fuel fuel' w (drop w C))).
    { apply imap_ext. intros i a _. unfold compose. replace (i0 + S i) with (i0 + 1 + i) by lia. done. }
    cbn [Nat.add] in Himap, Hp |- *. rewrite Himap, Hp, bind_Done. eexists. split; [done|]. split; [cbn [length]; lia|]. split.
    + intros b Hb. apply elem_of_cons in Hb as [->|Hb]; [by apply Hmul | auto].
    + cbn [map concat]. rewrite Hps. replace (U (take w C ++ drop w C) O) with (U (take w C ++ drop w C) (take w O ++ drop w O)) by (by rewrite (take_drop w O)). rewrite HU by done. f_equal. by apply Hmul.
Qed.

Lemma dot_worker_regs {A Q Q'} `{Num A} (T : list A -> list Q) (U : list A -> list A -> list Q) (total : list A -> Q') reg_mul (reg_total : reg_type -> list (list A) -> list A) r addr (C O : list A) :
  reg_ok r -> length C mod reg_len r = 0 -> addr mod reg_bytes r = 0 -> length O = length C ->
  U [] [] = [] ->
  (forall a b a' b', length a = reg_len r -> length b = reg_len r -> U (a ++ a') (b ++ b') = U a b ++ U a' b') ->
  (forall a b, length a = reg_len r -> length b = reg_len r -> length (reg_mul a b) = reg_len r /\ T (reg_mul a b) = U a b) ->
  exists prods, dot_worker r addr reg_mul (reg_total r) total O (0, length O) C = Done (total (reg_total r prods)) /\
    length prods * reg_len r = length C /\ (forall b, b ∈ prods -> length b = reg_len r) /\ concat (map T prods) = U C O.
Proof.
  intros Hr Hm Ha Hl HU0 HU Hmul. assert (Hw : 0 < reg_len r) by (by destruct Hr as (_ & ? & _)).
  unfold dot_worker, regs_of. cbn [fst]. rewrite Nat.mul_0_l, Nat.add_0_r, regs_check_true by done. cbn [assert_]. rewrite !bind_Done.
  apply Nat.mod_divide in Hm as [k Hk]; [|lia].
  destruct (dot_regs T U reg_mul (reg_len r) k O Hw HU0 HU Hmul 0 (length C) C O) as (prods & Hp & Hpk & Hpl & Hps); try done.
  cbn [Nat.add] in Hp |- *. rewrite Hp, bind_Done. exists prods. split_and!; [done|lia|done|done].
Qed.

(** The elements outside of the registers are less than two registers *)
Lemma few_edges r addr n part nl nc nr : reg_ok r -> elem_aligned r addr ->
  calc_data_alignment_reqs r addr n = Done part -> nl + nc + nr = n -> (nc = 0 -> nr = 0) ->
  (forall B (L C R rest : list B), length L = nl -> length C = nc -> length R = nr -> edge_iter part (L ++ C ++ R ++ rest) = Done (L ++ R)) ->
  nl + nr < 2 * reg_len r.
Proof.
  intros Hr Ha Hp Hsum Hnr Hcut. assert (Hl : 0 < reg_len r) by (by destruct Hr as (_ & ? & _)).
  destruct (calc_data_alignment_reqs_spec r addr n Hr Ha) as (left & Hleft & Hlt & Hcase). pose proof (alignment_eq _ _ _ Hr Hleft) as Hleq.
  destruct Hcase as [[Hsmall E]|[Hbig E]].
  - lia.
  - rewrite E in Hp. injection Hp as <-. specialize (Hcut unit (replicate nl tt) (replicate nc tt) (replicate nr tt) []
      ltac:(by rewrite replicate_length) ltac:(by rewrite replicate_length) ltac:(by rewrite replicate_length)).
    unfold edge_iter in Hcut. cbn [p_left p_len p_right] in Hcut. set (right := (n - left) mod reg_len r) in *.
    assert (Hright : right < reg_len r) by (apply Nat.mod_upper_bound; lia).
    assert (Hrn : right <= n - left) by (apply Nat.mod_le; lia).
    rewrite app_nil_r in Hcut. rewrite slice_Done in Hcut by (rewrite ?app_length, ?replicate_length; lia). rewrite bind_Done, usub_Done, bind_Done in Hcut by lia.
    rewrite slice_Done in Hcut by (rewrite ?app_length, ?replicate_length; lia). rewrite bind_Done in Hcut. injection Hcut as Hcut.
    apply (f_equal length) in Hcut. rewrite !app_length, !take_length, !drop_length, !app_length, !replicate_length in Hcut. lia.
Qed.

(** ** Adding numbers which are themselves sums *)
Section machine.
Local Open Scope R_scope.
Context {A : Type} `{Num A} (val : A -> R) (usual : A -> Prop) (u : R) (HR : rounds val usual u).

Lemma within_perm k l l' x : l ≡ₚ l' -> within u k l x -> within u k l' x.
Proof.
  intros Hp. unfold within. assert (E : forall m m', m ≡ₚ m' -> Rsum m = Rsum m').
  { intros m m' Hm. unfold Rsum. induction Hm as [|z m m' Hm IH|z z' m|m m' m'' Hm1 IH1 Hm2 IH2]; cbn [foldr]; lra. }
  rewrite (E _ _ Hp), (E (map Rabs l) (map Rabs l')); [done|]. by rewrite Hp.
Qed.

Lemma plus_within x y k k' l l' : 0 <= u <= / 1024 -> 0 <= k <= 64 -> 0 <= k' <= 64 -> usual x -> usual y ->
  within u k l (val x) -> within u k' l' (val y) -> usual (x + y)%num /\ within u (Rmax k k' + 9 / 8) (l ++ l') (val (x + y)%num).
Proof.
  intros Hu Hk Hk' Ux Uy Hx Hy. destruct (r_add _ _ _ HR x y Ux Uy) as [Us Es]. split; [done|].
  unfold within in *. rewrite Rsum_app, map_app, Rsum_app.
  pose proof (Rsum_abs_le l) as Hl. pose proof (Rsum_abs_pos l) as Hb. pose proof (Rsum_abs_le l') as Hl'. pose proof (Rsum_abs_pos l') as Hb'.
  set (b := Rsum (map Rabs l)) in *. set (b' := Rsum (map Rabs l')) in *. clearbody b b'. set (t := Rsum l) in *. set (t' := Rsum l') in *. clearbody t t'.
  pose proof (Rmax_l k k') as M1. pose proof (Rmax_r k k') as M2. set (m := Rmax k k') in *. clearbody m.
  assert (P : 0 <= u * b <= / 1024 * b) by (split; [apply Rmult_le_pos; lra|apply Rmult_le_compat_r; lra]).
  assert (P' : 0 <= u * b' <= / 1024 * b') by (split; [apply Rmult_le_pos; lra|apply Rmult_le_compat_r; lra]).
  replace (k * u * b) with (k * (u * b)) in Hx by ring. replace (k' * u * b') with (k' * (u * b')) in Hy by ring.
  assert (Q1 : k * (u * b) <= 64 * (u * b)) by (apply Rmult_le_compat_r; lra). assert (Q2 : k * (u * b) <= m * (u * b)) by (apply Rmult_le_compat_r; lra).
  assert (Q3 : k' * (u * b') <= 64 * (u * b')) by (apply Rmult_le_compat_r; lra). assert (Q4 : k' * (u * b') <= m * (u * b')) by (apply Rmult_le_compat_r; lra).
  assert (V : Rabs (val x + val y) <= 9 / 8 * (b + b')).
  { replace (val x + val y) with ((t + (val x - t)) + (t' + (val y - t'))) by ring. pose proof (Rabs_triang (t + (val x - t)) (t' + (val y - t'))).
    pose proof (Rabs_triang t (val x - t)). pose proof (Rabs_triang t' (val y - t')). lra. }
  assert (u * Rabs (val x + val y) <= u * (9 / 8 * (b + b'))) by (apply Rmult_le_compat_l; lra).
  replace (val (x + y)%num - (t + t')) with ((val (x + y)%num - (val x + val y)) + ((val x - t) + (val y - t'))) by ring.
  pose proof (Rabs_triang (val (x + y)%num - (val x + val y)) ((val x - t) + (val y - t'))). pose proof (Rabs_triang (val x - t) (val y - t')).
  replace ((m + 9 / 8) * u * (b + b')) with (m * (u * b) + m * (u * b') + u * (9 / 8 * (b + b'))) by ring. lra.
Qed.

(** [xs] are sums of [ls]; each addition costs 9/8 *)
Lemma fold_within k (f : A -> A -> A) xs ls x l k0 : 0 <= u <= / 1024 -> 0 <= k <= k0 -> k0 + 9 / 8 * INR (length xs) <= 64 ->
  usual x -> within u k0 l (val x) -> Forall2 (fun y m => usual y /\ within u k m (val y)) xs ls ->
  usual (foldl nadd x xs) /\ within u (k0 + 9 / 8 * INR (length xs)) (l ++ concat ls) (val (foldl nadd x xs)).
Proof.
  intros Hu Hk Hn Ux Hx HF. revert x l k0 Hk Hn Ux Hx. induction HF as [|y m xs ls [Uy Hy] HF IH]; intros x l k0 Hk Hn Ux Hx.
  - cbn [foldl concat length]. rewrite app_nil_r. split; [done|]. change (INR 0) with 0. replace (k0 + 9 / 8 * 0) with k0 by ring. exact Hx.
  - cbn [length] in Hn |- *. rewrite S_INR in Hn |- *. pose proof (pos_INR (length xs)) as Hp. cbn [foldl concat].
    destruct (plus_within x y k0 k l m Hu ltac:(lra) ltac:(lra) Ux Uy Hx Hy) as [U1 W1]. rewrite Rmax_left in W1 by lra.
    destruct (IH (x + y)%num (l ++ m) (k0 + 9 / 8) ltac:(lra) ltac:(lra) U1 W1) as [U2 W2]. split; [exact U2|].
    rewrite <- app_assoc in W2. replace (k0 + 9 / 8 * (INR (length xs) + 1)) with (k0 + 9 / 8 + 9 / 8 * INR (length xs)) by ring. exact W2.
Qed.

Lemma within_zero k : within u k [] (val n0).
Proof. destruct (r_zero _ _ _ HR) as [_ ->]. apply within_nil. Qed.
Lemma within_one k x : 0 <= u -> 0 <= k -> within u k [val x] (val x).
Proof.
  intros Hu Hk. unfold within, Rsum. cbn [map foldr]. replace (val x - (val x + 0)) with 0 by ring. rewrite Rabs_R0. apply Rmult_le_pos; [by apply Rmult_le_pos|].
  pose proof (Rabs_pos (val x)). lra.
Qed.

(** The lanes of one register *)
Lemma lanes_within k xs ls : 0 <= u <= / 1024 -> 0 <= k -> k + 9 / 8 * INR (length xs) <= 64 ->
  Forall2 (fun y m => usual y /\ within u k m (val y)) xs ls ->
  usual (reg_sum n0 nadd xs) /\ within u (k + 9 / 8 * INR (length xs)) (concat ls) (val (reg_sum n0 nadd xs)).
Proof.
  intros Hu Hk Hn HF. destruct HF as [|y m xs ls [Uy Hy] HF].
  - cbn [reg_sum concat]. split; [apply (r_zero _ _ _ HR)|apply within_zero].
  - cbn [length] in Hn |- *. rewrite S_INR in Hn |- *. pose proof (pos_INR (length xs)) as Hp. cbn [reg_sum concat].
    destruct (fold_within k nadd xs ls y m k Hu ltac:(lra) ltac:(lra) Uy Hy HF) as [U W]. split; [exact U|].
    apply (within_le u (k + 9 / 8 * INR (length xs))); [lra|lra|exact W].
Qed.
(** The plain sum of a few numbers *)
Lemma few_within xs : 0 <= u <= / 1024 -> 9 / 8 * INR (length xs) <= 64 -> (forall x, x ∈ xs -> usual x) ->
  usual (foldl nadd n0 xs) /\ within u (9 / 8 * INR (length xs)) (map val xs) (val (foldl nadd n0 xs)).
Proof.
  intros Hu Hn Hx. destruct (fold_within 0 nadd xs (map (fun x => [val x]) xs) n0 [] 0 Hu ltac:(lra) ltac:(lra)) as [U W].
  - apply (r_zero _ _ _ HR).
  - apply within_zero.
  - clear -Hu Hx. induction xs as [|x xs IH]; constructor; [split; [apply Hx; left|apply within_one; lra]|]. apply IH. intros y Hy. apply Hx. by right.
  - split; [exact U|]. rewrite Rplus_0_l in W. cbn [app] in W. replace (concat (map (fun x => [val x]) xs)) with (map val xs) in W; [exact W|].
    clear. induction xs as [|x xs IH]; [done|]. cbn [map concat app]. by rewrite <- IH.
Qed.

(** One register of compensated sums, lane by lane *)
Lemma kahan_reg_within w (prods : list (list A)) (js : list nat) : 0 <= u <= / 1024 -> INR (length prods) * u <= / 64 ->
  (forall b, b ∈ prods -> length b = w) -> (forall j, j ∈ js -> (j < w)%nat) -> (forall b j, b ∈ prods -> j ∈ js -> usual (nth j b n0)) -> 
  Forall2 (fun y m => usual y /\ within u (9 / 2) m (val y)) (map (fun j => kahan_sum n0 nadd nsub (lane j prods)) js) (map (fun j => map val (lane j prods)) js).
Proof.
  intros Hu Hn Hl Hj Hx. induction js as [|j js IH]; cbn [map]; constructor.
  - apply (kahan_within val usual u HR).
    + split; [done|]. unfold lane. by rewrite map_length.
    + intros x (b & -> & Hb)%elem_of_list_fmap. apply Hx; [done|left].
  - apply IH; intros; [apply Hj|apply Hx]; try done; by right.
Qed.
End machine.

Lemma picked_perm {A} `{Num A} (js : list nat) (l : list (list A)) :
  concat (map (fun j => lane j l) js) ≡ₚ concat (map (fun b => map (fun j => nth j b n0) js) l).
Proof.
  induction l as [|b l IH].
  - unfold lane. cbn [map concat]. induction js as [|j js IHs]; [done|]. cbn [map concat app]. exact IHs.
  - cbn [map concat]. unfold lane. cbn [map]. rewrite (concat_cons_perm (fun j => nth j b n0) (fun j => map (fun b => nth j b n0) l)).
    apply Permutation_app_head. exact IH.
Qed.
Lemma concat_map_map {B Q} (f : B -> Q) (ls : list (list B)) : map f (concat ls) = concat (map (map f) ls).
Proof. induction ls as [|l ls IH]; [done|]. cbn [concat map]. by rewrite map_app, IH. Qed.

Lemma zip_fold {Q} (add mul : Q -> Q -> Q) (e oe : list Q) zero :
  foldl (fun sum '(a, b) => add sum (mul a b)) zero (zip e oe) = foldl add zero (zip_with mul e oe).
Proof. revert oe zero. induction e as [|a e IH]; intros [|b oe] zero; try done. cbn [zip_with foldl]. apply IH. Qed.

Section dot.
Local Open Scope R_scope.
Context {A : Type} `{Num A} (val : A -> R) (usual : A -> Prop) (u : R) (HR : rounds val usual u).

(** The sum of the lanes [js] of a register with the compensated sums *)
Lemma picked_within w (prods : list (list A)) (js : list nat) (items : list A) :
  0 <= u <= / 1024 -> INR (length prods) * u <= / 64 -> (length js <= 16)%nat ->
  (forall b, b ∈ prods -> length b = w) -> (forall j, j ∈ js -> (j < w)%nat) ->
  concat (map (fun b => map (fun j => nth j b n0) js) prods) = items -> (forall x, x ∈ items -> usual x) ->
  let x := reg_sum n0 nadd (map (fun j => kahan_sum n0 nadd nsub (lane j prods)) js) in
  usual (n0 + x)%num /\ within u (45 / 8 + 9 / 8 * INR (length js)) (map val items) (val (n0 + x)%num).
Proof.
  intros Hu Hn Hjs Hl Hj Hitems Hx x. apply le_INR in Hjs. replace (INR 16) with 16 in Hjs by (cbn; lra). pose proof (pos_INR (length js)) as Hp.
  destruct (lanes_within val usual u HR (9 / 2) (map (fun j => kahan_sum n0 nadd nsub (lane j prods)) js) (map (fun j => map val (lane j prods)) js)) as [U W]; [done|lra| | |].
  - rewrite map_length. lra.
  - apply (kahan_reg_within val usual u HR w); try done. intros b j Hb Hjj. apply Hx. rewrite <- Hitems. apply elem_of_list_In, in_concat.
    exists (map (fun j => nth j b n0) js). split.
    + apply in_map_iff. exists b. split; [done|]. by apply elem_of_list_In.
    + apply in_map_iff. exists j. split; [done|]. by apply elem_of_list_In.
  - rewrite map_length in W. change (usual x) in U. change (within u (9 / 2 + 9 / 8 * INR (length js)) (concat (map (fun j => map val (lane j prods)) js)) (val x)) in W.
    assert (W' : within u (9 / 2 + 9 / 8 * INR (length js)) (map val items) (val x)).
    { apply (within_perm u _ (concat (map (fun j => map val (lane j prods)) js))); [|exact W].
      rewrite <- (map_map (fun j => lane j prods) (map val)), <- concat_map_map, <- Hitems. apply Permutation_map, picked_perm. }
    destruct (zero_plus_within val usual u HR x (map val items) (9 / 2 + 9 / 8 * INR (length js)) Hu ltac:(lra) U W') as [U2 W2]. split; [exact U2|].
    replace (45 / 8 + 9 / 8 * INR (length js)) with (9 / 2 + 9 / 8 * INR (length js) + 9 / 8) by field. exact W2.
Qed.

(** Registers and the elements around them *)
Lemma assembled_within (chunk edge : A) (sum_of_edges : A) n L (cl el all : list R) : 0 <= u <= / 1024 -> (0 < L <= 16)%nat -> (n < 2 * L)%nat ->
  usual chunk -> within u (45 / 8 + 9 / 8 * INR L) cl (val chunk) -> usual edge -> within u (9 / 8 * INR n) el (val edge) -> cl ++ el ≡ₚ all ->
  usual (chunk + edge)%num /\ within u (7 + 9 / 4 * INR L) all (val (chunk + edge)%num).
Proof.
  intros Hu HL Hn Uc Wc Ue We Hall. assert (HL1 : INR L <= 16) by (replace 16 with (INR 16) by (cbn; lra); apply le_INR; lia).
  assert (HL0 : 1 <= INR L) by (change 1 with (INR 1); apply le_INR; lia).
  assert (Hn1 : INR n <= 2 * INR L) by (change 2 with (INR 2); rewrite <- mult_INR; apply le_INR; lia). pose proof (pos_INR n) as Hn0.
  destruct (plus_within val usual u HR chunk edge (45 / 8 + 9 / 8 * INR L) (9 / 8 * INR n) cl el Hu ltac:(lra) ltac:(lra) Uc Ue Wc We) as [U W]. split; [exact U|].
  apply (within_perm u _ (cl ++ el)); [exact Hall|]. refine (within_le u _ _ _ _ _ _ W); [lra|].
  assert (Rmax (45 / 8 + 9 / 8 * INR L) (9 / 8 * INR n) <= 45 / 8 + 9 / 4 * INR L) by (apply Rmax_lub; lra). lra.
Qed.
End dot.
