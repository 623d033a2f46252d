(** Convolution of a matrix with a matrix of impulse responses. *)
From Verif Require Export Spec_Matrix Proof_Overlap.
From stdpp Require Import list_numbers.
Local Open Scope nat_scope.

Lemma all_done_Forall2 {X Y} (f : X -> run Y) xs ys : Forall2 (fun x y => f x = Done y) xs ys -> all_done (map f xs) = Done ys.
Proof. induction 1 as [|x y xs ys E _ IH]; [done|]. cbn [map all_done]. rewrite E, bind_Done, IH. done. Qed.

Section sums.
Context {P : Type} (zero : P) (add : P -> P -> P).
Context (Hz : forall x, add zero x = x) (Hz2 : forall x, add x zero = x) (Hassoc : forall x y z, add (add x y) z = add x (add y z)).
Lemma foldl_start x l : foldl add x l = add x (foldl add zero l).
Proof using Hz Hz2 Hassoc.
  revert x. induction l as [|y l IH]; intros x; [cbn; by rewrite Hz2|]. cbn [foldl]. rewrite (IH (add x y)), (IH (add zero y)), Hz. apply Hassoc.
Qed.
Lemma foldl_concat (ls : list (list P)) : foldl add zero (concat ls) = foldl add zero (map (foldl add zero) ls).
Proof using Hz Hz2 Hassoc.
  induction ls as [|l ls IH]; [done|]. cbn [concat map foldl]. rewrite foldl_app, foldl_start, IH, (foldl_start (add zero _)), Hz. done.
Qed.

(** The terms of all rows in one sum, or the sum of the row convolutions *)
Lemma matrix_convolution_sums mul n m (xs hs : list (list P)) : Forall (fun x => length x = n) xs -> Forall (fun h => length h = m) hs ->
  matrix_convolution zero add mul ((m + 1) / 2) n xs hs = row_sums zero add n (zip_with (centred_convolution zero add mul) xs hs).
Proof using Hz Hz2 Hassoc.
  intros Hx Hh. unfold matrix_convolution, row_sums. apply map_ext_in. intros i Hi. apply in_seq in Hi. rewrite foldl_concat. f_equal.
  revert hs Hh. induction Hx as [|x xs Hlx Hx IH]; intros [|h hs] Hh; try done. inversion_clear Hh as [|? ? Hlh Hhs]. cbn [zip_with map]. rewrite IH by done. f_equal.
  unfold centred_convolution. rewrite circular_convolution_lookup by lia. rewrite Hlh. done.
Qed.
End sums.

Section convolve_mat.
Context {A : Type} `{Num A}.

Lemma same_lengths {V} (f : V -> nat) n vs : Forall (fun v => f v = n) vs -> existsb (fun v => negb (f v =? n)) vs = false.
Proof. induction 1 as [|v vs E _ IH]; [done|]. cbn [existsb]. by rewrite E, Nat.eqb_refl, IH. Qed.

Lemma rows_len (m : list (dvec A)) xs n : real_rows m xs -> Forall (fun x => length x = n) xs -> Forall (fun v => len v = n) m.
Proof. intros Hm. induction Hm as [|v x m xs Hv Hm IH]; intros Hl; [done|]. inversion_clear Hl. constructor; [|by apply IH]. by rewrite (reals_len v x (proj2 Hv)). Qed.
Lemma crows_len (m : list (dvec A)) xs n : complex_rows m xs -> Forall (fun x => length x = n) xs -> Forall (fun v => len v = 2 * n) m.
Proof. intros Hm. induction Hm as [|v x m xs Hv Hm IH]; intros Hl; [done|]. inversion_clear Hl. constructor; [|by apply IH]. rewrite (reals_len v _ (proj2 Hv)), complex_to_array_length. lia. Qed.

Lemma conv_window_fits n m : m <= n -> conv_window n m = Done (0, m, m, (m + 1) / 2).
Proof. intros Hl. unfold conv_window. rewrite (proj2 (Nat.ltb_ge n m)) by lia. repeat f_equal. lia. Qed.

Lemma some_points_any (l : list A) a b k : a + 2 * k = b -> b <= length l -> exists c, slice l a b = Done (complex_to_array c) /\ length c = k.
Proof.
  intros E Hb. rewrite slice_Done by lia. set (s := take _ _).
  assert (Hl : length s = 2 * k) by (unfold s; rewrite take_length, drop_length; lia).
  exists (pairs_of s). split.
  - f_equal. symmetry. apply complex_to_array_pairs_of. by rewrite Hl, even_double.
  - rewrite pairs_of_length, Hl. by rewrite div2_double.
Qed.

Lemma convolve_mat_points_cut {P} (zero : P) add mul full (xs hs : list (list P)) conv_len dest :
  Forall (fun x => x <> []) xs -> Forall (fun h => length h <= full) hs ->
  convolve_mat_points zero add mul xs hs conv_len full dest = Done (matrix_convolution zero add mul conv_len (length dest) xs hs).
Proof. intros Hx Hh. unfold convolve_mat_points. apply loop_fill. intros i d Hi Hd. by rewrite convolve_mat_iteration_spec. Qed.

Lemma inline_from_iter_Done {P} (l : list P) : length l <= 64 -> inline_from_iter l = Done l.
Proof. intros Hl. unfold inline_from_iter. by rewrite (proj2 (Nat.ltb_ge _ _)). Qed.
Lemma inline_from_iter_Panicked {P} (l : list P) : 64 < length l -> inline_from_iter l = Panicked.
Proof. intros Hl. unfold inline_from_iter. by rewrite (proj2 (Nat.ltb_lt _ _)). Qed.

(** More than 64 rows don't fit into the vectors in which the rows are collected. *)
Lemma convolve_mat_many (rows imps : matrix A) target n m : length imps = length rows -> Forall (fun v => len v = n) rows -> Forall (fun v => len v = m) imps ->
  64 < length rows -> convolve_mat rows imps target = Panicked.
Proof.
  intros Hlen Hr Hi H64. unfold convolve_mat. destruct rows as [|v rows]; [cbn in H64; lia|]. destruct imps as [|o imps]; [cbn in Hlen; lia|].
  pose proof (Forall_inv Hr) as Elv. pose proof (Forall_inv Hi) as Elo. cbv beta in Elv, Elo.
  rewrite Elv, Elo. rewrite (proj2 (Nat.eqb_eq _ _) Hlen). cbn [negb]. rewrite (same_lengths len n _ Hr), (same_lengths len m _ Hi).
  destruct (conv_window (points v) (points o)) as [[[[a b] c] d]|]; [|done]. rewrite bind_Done.
  rewrite (inline_from_iter_Panicked (o :: imps)) by lia. done.
Qed.

Theorem convolve_mat_reals (rows imps : matrix A) xs hs n m target : rows <> [] -> length imps = length rows ->
  real_rows rows xs -> real_rows imps hs -> Forall (fun x => length x = n) xs -> Forall (fun h => length h = m) hs -> m <= n -> n <= length target ->
  length rows <= 64 ->
  convolve_mat rows imps target = Done (matrix_convolution n0 nadd nmul ((m + 1) / 2) n xs hs ++ drop n target, Ok tt).
Proof.
  intros Hne Hlen Hr Hi Hx Hh Hmn Ht H64. unfold convolve_mat.
  destruct rows as [|v rows]; [done|]. destruct imps as [|o imps]; [done|].
  pose proof (rows_len _ _ n Hr Hx) as Hlr. pose proof (rows_len _ _ m Hi Hh) as Hli.
  pose proof (Forall_inv Hlr) as Elv. pose proof (Forall_inv Hli) as Elo.
  rewrite Elv, Elo. rewrite (proj2 (Nat.eqb_eq _ _) Hlen). cbn [negb]. rewrite (same_lengths len n _ Hlr), (same_lengths len m _ Hli).
  destruct xs as [|x xs]; [by inversion Hr|]. destruct hs as [|h hs]; [by inversion Hi|].
  assert (Hv : reals v x) by (by inversion Hr). assert (Ho : reals o h) by (by inversion Hi).
  rewrite (points_reals v x Hv), (points_reals o h Ho). rewrite (Forall_inv Hx), (Forall_inv Hh), conv_window_fits, bind_Done by done.
  rewrite (inline_from_iter_Done (o :: imps)), bind_Done, (inline_from_iter_Done (v :: rows)), bind_Done by lia.
  rewrite (proj1 Hv).
  rewrite (all_done_Forall2 _ (o :: imps) (h :: hs)), bind_Done.
  2:{ clear - Hi Hh. induction Hi as [|w y ws ys Hw Hws IH]; [done|]. inversion_clear Hh as [|? ? E Hh']. constructor; [|by apply IH].
      destruct Hw as [_ Hw]. unfold vdata in Hw. pose proof (vdata_inv w y Hw) as (E2 & _). by rewrite E2, E in Hw. }
  rewrite (all_done_Forall2 _ (v :: rows) (x :: xs)), bind_Done.
  2:{ clear - Hr Hx. induction Hr as [|w y ws ys Hw Hws IH]; [done|]. inversion_clear Hx as [|? ? E Hh']. constructor; [|by apply IH].
      destruct Hw as [_ Hw]. unfold vdata in Hw. pose proof (vdata_inv w y Hw) as (E2 & _). by rewrite E2, E in Hw. }
  rewrite (slice_Done target 0 n) by lia. rewrite bind_Done, drop_0, Nat.sub_0_r.
  assert (Hlt : length (take n target) = n) by (rewrite take_length; lia).
  rewrite convolve_mat_points_spec, bind_Done, Hlt.
  3:{ eapply Forall_impl; [exact Hh|]. cbn. intros ? ->. done. }
  2:{ by rewrite Hlt. }
  set (c := matrix_convolution _ _ _ _ _ _ _). assert (Hlc : length c = n) by (unfold c, matrix_convolution; by rewrite map_length, seq_length).
  rewrite splice_Done by lia. rewrite bind_Done, Hlc. done.
Qed.

(** The complex case: all rows are cut to the length of the impulse responses first. *)
Theorem convolve_mat_cplx (rows imps : matrix A) xs hs n m target : rows <> [] -> length imps = length rows ->
  complex_rows rows xs -> complex_rows imps hs -> Forall (fun x => length x = n) xs -> Forall (fun h => length h = m) hs -> 0 < m <= n -> 2 * n <= length target ->
  length rows <= 64 ->
  convolve_mat rows imps target =
    Done (complex_to_array (matrix_convolution (n0, n0) cadd cmul ((m + 1) / 2) n (map (take m) xs) hs) ++ drop (2 * n) target, Ok tt).
Proof.
  intros Hne Hlen Hr Hi Hx Hh Hmn Ht H64. unfold convolve_mat.
  destruct rows as [|v rows]; [done|]. destruct imps as [|o imps]; [done|].
  pose proof (crows_len _ _ n Hr Hx) as Hlr. pose proof (crows_len _ _ m Hi Hh) as Hli.
  pose proof (Forall_inv Hlr) as Elv. pose proof (Forall_inv Hli) as Elo. cbv beta in Elv, Elo.
  rewrite Elv, Elo. rewrite (proj2 (Nat.eqb_eq _ _) Hlen). cbn [negb]. rewrite (same_lengths len (2 * n) _ Hlr), (same_lengths len (2 * m) _ Hli).
  destruct xs as [|x xs]; [by inversion Hr|]. destruct hs as [|h hs]; [by inversion Hi|].
  assert (Hv : cplx v x) by (by inversion Hr). assert (Ho : cplx o h) by (by inversion Hi).
  rewrite (points_cplx v x Hv), (points_cplx o h Ho). rewrite (Forall_inv Hx), (Forall_inv Hh), conv_window_fits, bind_Done by lia.
  rewrite (inline_from_iter_Done (o :: imps)), bind_Done, (inline_from_iter_Done (v :: rows)), bind_Done by lia.
  rewrite (proj1 Hv).
  rewrite (all_done_Forall2 _ (o :: imps) (h :: hs)), bind_Done.
  2:{ clear - Hi Hh. induction Hi as [|w y ws ys Hw Hws IH]; [done|]. inversion_clear Hh as [|? ? E Hh']. constructor; [|by apply IH].
      destruct Hw as [_ Hw]. pose proof (vdata_inv w _ Hw) as (E2 & _). unfold vdata in Hw. rewrite E2, complex_to_array_length, E in Hw. rewrite Hw, bind_Done, array_to_complex_Done, bind_Done.
      rewrite slice_Done by lia. rewrite drop_0, Nat.sub_0_r, take_ge by lia. done. }
  rewrite (all_done_Forall2 _ (v :: rows) (map (take m) (x :: xs))), bind_Done.
  2:{ clear - Hr Hx Hmn. induction Hr as [|w y ws ys Hw Hws IH]; [constructor|]. inversion_clear Hx as [|? ? E Hh']. constructor; [|by apply IH].
      destruct Hw as [_ Hw]. destruct (vdata_split w _ Hw) as (rest & E1 & E2).
      rewrite slice_Done by (rewrite ?E1, ?app_length, ?complex_to_array_length; lia).
      rewrite bind_Done, drop_0, Nat.sub_0_r, E1, take_app_le by (rewrite complex_to_array_length; lia).
      rewrite complex_to_array_take. apply array_to_complex_Done. }
  destruct (some_points_any target 0 (2 * n) n) as (tc & E & Htc); [lia | lia |]. rewrite E, bind_Done, array_to_complex_Done, bind_Done.
  rewrite (convolve_mat_points_cut (n0, n0) cadd cmul m), bind_Done, Htc.
  3:{ eapply Forall_impl; [exact Hh|]. cbn. intros ? ->. done. }
  2:{ apply Forall_fmap. eapply Forall_impl; [exact Hx|]. cbn. intros y Hy E0. apply (f_equal length) in E0. rewrite take_length in E0. cbn in E0. lia. }
  set (c := matrix_convolution _ _ _ _ _ _ _). assert (Hlc : length c = n) by (unfold c, matrix_convolution; by rewrite map_length, seq_length).
  rewrite splice_Done by (rewrite complex_to_array_length; lia). rewrite bind_Done, complex_to_array_length, Hlc. done.
Qed.

(** Whatever does not fit together is refused, and the target stays as it is. *)
Theorem convolve_mat_error (rows imps : matrix A) target :
  rows = [] \/ imps = [] \/ length imps <> length rows \/ (exists v w, v ∈ rows /\ w ∈ rows /\ len v <> len w) \/ (exists v w, v ∈ imps /\ w ∈ imps /\ len v <> len w) ->
  convolve_mat rows imps target = Done (target, Err InvalidArgumentLength).
Proof.
  intros Hbad. unfold convolve_mat. destruct imps as [|h imps]; [done|]. destruct rows as [|x rows]; [done|].
  destruct (length (h :: imps) =? length (x :: rows)) eqn:El; [|done]. apply Nat.eqb_eq in El. cbn [negb].
  assert (Hex : forall (l : list (dvec A)) (u : dvec A), (exists v w, v ∈ l /\ w ∈ l /\ len v <> len w) -> existsb (fun v : dvec A => negb (len v =? len u)) l = true).
  { intros l u (v & w & Hv & Hw & Hne). apply existsb_exists. destruct (decide (len v = len u)) as [Ev|Ev].
    - exists w. split; [by apply elem_of_list_In|]. apply negb_true_iff, Nat.eqb_neq. lia.
    - exists v. split; [by apply elem_of_list_In|]. by apply negb_true_iff, Nat.eqb_neq. }
  destruct Hbad as [?|[?|[?|[Hb|Hb]]]]; try done.
  - by rewrite (Hex _ x Hb).
  - destruct (existsb (fun v : dvec A => negb (len v =? len x)) (x :: rows)); [done|]. by rewrite (Hex _ h Hb).
Qed.
End convolve_mat.

Section mat_convolve.
Context {A : Type} `{Num A} `{Flt A} `{Rem A} `{Trig A} `{F : Fft A}.

Lemma mat_convolve_loop_spec (rows : matrix A) rl imps cs n pre rest :
  Forall2 (fun imp c => forall part, length part = rl -> convolve_mat rows imp part = Done (c, Ok tt)) imps cs -> Forall (fun c => length c = rl) cs ->
  length pre = n * rl -> length rest = length imps * rl ->
  mat_convolve_loop rows rl imps n (length imps) (pre ++ rest) = Done (pre ++ concat cs, Ok tt).
Proof.
  intros Hc. revert n pre rest. induction Hc as [|imp c imps cs E Hc IH]; intros n pre rest Hl Hp Hr.
  - cbn in Hr. destruct rest; [|done]. done.
  - cbn [length] in *. cbn [mat_convolve_loop]. inversion_clear Hl as [|? ? Hlc Hl'].
    assert (Hlr : length rest = rl + length imps * rl) by lia.
    assert (Hn : (n + 1) * rl = n * rl + rl) by lia.
    rewrite slice_Done by (rewrite ?app_length; lia). rewrite bind_Done, Hn, drop_app_alt by done.
    replace (n * rl + rl - n * rl) with rl by lia.
    rewrite E by (rewrite take_length; lia). rewrite bind_Done.
    rewrite splice_Done by (rewrite app_length; lia). rewrite bind_Done, take_app_alt by done.
    rewrite drop_app_ge by lia. rewrite Hlc. replace (n * rl + rl - length pre) with rl by lia.
    rewrite app_assoc. rewrite (IH (n + 1) (pre ++ c)); [ | done | rewrite app_length; lia | rewrite drop_length; lia].
    cbn [concat]. by rewrite app_assoc.
Qed.

Lemma rows_each_from_lookup {V} i0 (f : nat -> V -> run V) m (g : nat -> V -> V) :
  (forall i v, m !! i = Some v -> f (i0 + i) v = Done (g (i0 + i) v)) -> rows_each_from i0 f m = Done (imap (fun i => g (i0 + i)) m).
Proof.
  revert i0. induction m as [|v m IH]; intros i0 Hf; [done|]. cbn [rows_each_from]. pose proof (Hf 0 v eq_refl) as E. rewrite Nat.add_0_r in E. rewrite E, bind_Done.
  rewrite (IH (S i0)), bind_Done.
  - cbn [imap]. rewrite Nat.add_0_r. do 2 f_equal. apply imap_ext. intros j x _. cbn. by rewrite Nat.add_succ_r.
  - intros j w Hj. replace (S i0 + j) with (i0 + S j) by lia. by apply Hf.
Qed.

Lemma concat_row {P} (cs : list (list P)) rl i c : Forall (fun c => length c = rl) cs -> cs !! i = Some c -> slice (concat cs) (i * rl) ((i + 1) * rl) = Done c.
Proof.
  intros Hl Hi. assert (Hlen : forall l : list (list P), Forall (fun c => length c = rl) l -> length (concat l) = length l * rl).
  { induction 1 as [|x l Hx _ IH]; [done|]. cbn [concat length]. rewrite app_length, IH. lia. }
  pose proof (lookup_lt_Some _ _ _ Hi). rewrite slice_Done by (rewrite ?Hlen by done; nia).
  rewrite <- (take_drop_middle cs i c Hi) at 1. rewrite concat_app. cbn [concat].
  rewrite drop_app_alt by (rewrite Hlen by (by apply Forall_take); rewrite take_length_le by lia; done).
  rewrite Forall_lookup in Hl. specialize (Hl i c Hi). rewrite take_app_alt by lia. done.
Qed.

(** Row [r] of the result is the sum of the convolutions of all rows with the impulse responses in row [r]. *)
Theorem mat_convolve_reals (Hring : exact_ring A) b (rows : matrix A) (imps : list (matrix A)) xs hs n m : rows <> [] -> length imps = length rows ->
  real_rows rows xs -> Forall (fun x => length x = n) xs ->
  Forall2 real_rows imps hs -> Forall (fun imp => length imp = length rows) imps -> Forall (Forall (fun h => length h = m)) hs -> m <= n ->
  (forall store, b = FixedLenBuffer store -> n * length rows <= length store) -> length rows <= 64 ->
  exists rows' b', mat_convolve_signal b rows imps = Done (rows', b', Ok tt) /\
    real_rows rows' (map (fun h => row_sums n0 nadd n (zip_with (centred_convolution n0 nadd nmul) xs h)) hs) /\ Forall2 same_meta rows rows'.
Proof.
  intros Hne Hlen Hr Hx Hi Hli Hh Hmn Hb H64. unfold mat_convolve_signal.
  pose proof (rows_len _ _ n Hr Hx) as Hlr.
  assert (Erl : row_len rows = n) by (destruct rows; [done|]; by inversion Hlr). rewrite Erl.
  assert (exists t, borrow n0 b (n * length rows) = Done t /\ length t = n * length rows) as (t & E & Ht).
  { destruct rows as [|v rows]; [done|]. destruct b as [temp| |store].
    - apply (borrow_lends n0 _ v). done.
    - apply (borrow_lends n0 _ v). done.
    - specialize (Hb _ eq_refl). unfold borrow. rewrite (proj2 (Nat.ltb_ge _ _)) by done. eexists. split; [done|]. rewrite take_length. lia. }
  rewrite E, bind_Done.
  set (cs := map (fun h => matrix_convolution n0 nadd nmul ((m + 1) / 2) n xs h) hs).
  assert (Hlcs : Forall (fun c => length c = n) cs).
  { apply Forall_fmap, Forall_forall. intros h _. cbn. unfold matrix_convolution. by rewrite map_length, seq_length. }
  assert (Hcs : Forall2 (fun imp c => forall part, length part = n -> convolve_mat rows imp part = Done (c, Ok tt)) imps cs).
  { unfold cs. clear - Hi Hli Hh Hne Hr Hx Hmn H64. induction Hi as [|imp h imps hs Hih Hi IH]; [constructor|]. inversion_clear Hli as [|? ? E1 Hli']. inversion_clear Hh as [|? ? E2 Hh'].
    cbn [map]. constructor; [|by apply IH]. intros part Hp. rewrite (convolve_mat_reals rows imp xs h n m); try done; [|lia].
    rewrite drop_ge by lia. by rewrite app_nil_r. }
  rewrite <- Hlen. rewrite <- (app_nil_l t). rewrite (mat_convolve_loop_spec rows n imps cs 0 [] t); [|done|done|done|lia]. rewrite bind_Done, app_nil_l.
  assert (Hlc : length cs = length rows) by (unfold cs; rewrite map_length, <- (Forall2_length _ _ _ Hi); done).
  unfold rows_each. rewrite (rows_each_from_lookup 0 _ rows (fun i v => set_elems v (default [] (cs !! i) ++ drop n (elems v)))).
  2:{ intros i v Hv. cbn [Nat.add]. pose proof (lookup_lt_Some _ _ _ Hv) as Hilt.
      destruct (lookup_lt_is_Some_2 cs i) as [c Hc]; [lia|]. rewrite Hc.
      pose proof Hr as Hr'. unfold real_rows in Hr'. destruct (Forall2_lookup_l _ _ _ _ _ Hr' Hv) as (x & Hxi & [Hns Hd]).
      rewrite Hd, bind_Done, (concat_row cs n i c Hlcs Hc), bind_Done.
      pose proof (vdata_inv v x Hd) as (E2 & E3 & _). rewrite Forall_lookup in Hlr. specialize (Hlr i v Hv). unfold len in Hlr.
      rewrite Forall_lookup in Hlcs. specialize (Hlcs i c Hc). cbv beta in Hlcs.
      rewrite copy_into_Done by lia. rewrite bind_Done, take_0, app_nil_l, Hlr. done. }
  rewrite bind_Done. eexists _, _. split; [done|]. split.
  - unfold real_rows. apply Forall2_same_length_lookup_2; [by rewrite imap_length, map_length, <- Hlc; unfold cs; rewrite map_length|].
    intros i v' y Hv' Hy. rewrite list_lookup_imap in Hv'. destruct (rows !! i) as [v|] eqn:Hv; [|done]. cbn in Hv'.
    change (map ?f hs) with (f <$> hs) in Hy. rewrite list_lookup_fmap in Hy. destruct (hs !! i) as [h|] eqn:Hhi; [|done]. cbn in Hy.
    injection Hy as <-. assert (Hci : cs !! i = Some (matrix_convolution n0 nadd nmul ((m + 1) / 2) n xs h)).
    { unfold cs. change (map ?f hs) with (f <$> hs). rewrite list_lookup_fmap, Hhi. done. }
    rewrite Hci in Hv'. cbn in Hv'. injection Hv' as <-.
    rewrite Forall_lookup in Hh. specialize (Hh i h Hhi).
    destruct (Forall2_lookup_l _ _ _ _ _ Hr Hv) as (x & Hxi & [Hns Hd]).
    rewrite <- (matrix_convolution_sums n0 nadd) with (m := m); [ | | | | done | done].
    + split; [done|]. pose proof (vdata_inv v x Hd) as (E2 & E3 & _). rewrite Forall_lookup in Hlr. specialize (Hlr i v Hv). unfold len in Hlr.
      rewrite Forall_lookup in Hlcs. specialize (Hlcs i _ Hci). cbv beta in Hlcs.
      apply vdata_intro with (r := drop n (elems v)); [done|]. rewrite Hlcs. exact Hlr.
    + intros y. apply (Radd_0_l Hring).
    + intros y. rewrite (Radd_comm Hring). apply (Radd_0_l Hring).
    + intros y z w. symmetry. apply (Radd_assoc Hring).
  - apply Forall2_same_length_lookup_2; [by rewrite imap_length|]. intros i v v' Hv Hv'. rewrite list_lookup_imap, Hv in Hv'. cbn in Hv'. by injection Hv' as <-.
Qed.

(** A matrix with more than 64 rows *)
Theorem mat_convolve_many b (rows : matrix A) (imps : list (matrix A)) n m : 64 < length rows -> imps <> [] ->
  Forall (fun v => len v = n) rows -> Forall (fun imp => length imp = length rows /\ Forall (fun v => len v = m) imp) imps ->
  mat_convolve_signal b rows imps = Panicked.
Proof.
  intros H64 Hne Hr Hi. unfold mat_convolve_signal. destruct (borrow n0 b (row_len rows * length rows)) as [t|]; [|done]. rewrite bind_Done.
  destruct imps as [|imp imps]; [done|]. destruct (Forall_inv Hi) as [Hli Him].
  destruct (length rows) as [|k] eqn:Ek; [lia|]. cbn [mat_convolve_loop].
  destruct (slice t (0 * row_len rows) ((0 + 1) * row_len rows)) as [part|]; [|done]. rewrite bind_Done.
  rewrite (convolve_mat_many rows imp part n m) by (done || lia || congruence). done.
Qed.
End mat_convolve.
