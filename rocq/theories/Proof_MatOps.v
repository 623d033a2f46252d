(** The loops over the rows of a matrix. *)
From Verif Require Export Spec_Matrix Model_MatOps Proof_Base.

Lemma bind_Done_inv {X Y} (k : X -> run Y) (m : run X) y : (x ← m; k x) = Done y -> exists x, m = Done x /\ k x = Done y.
Proof. destruct m; [by eexists | done]. Qed.

Section each.
Context {V W : Type}.
Lemma each_row_ext (f g : nat -> V -> run W) m m' : (forall i v, f i v = g i v) -> each_row f m m' <-> each_row g m m'.
Proof. intros E. unfold each_row. by setoid_rewrite E. Qed.
Lemma each_row_cons (f : nat -> V -> run W) v m w m' : each_row f (v :: m) (w :: m') <-> f 0 v = Done w /\ each_row (fun i => f (S i)) m m'.
Proof.
  unfold each_row. split.
  - intros [L H]. split.
    + destruct (H 0 v eq_refl) as (w' & [= ->] & E). done.
    + split; [by injection L|]. intros i u Hu. destruct (H (S i) u Hu) as (w' & H1 & H2). by exists w'.
  - intros (E & L & H). split; [cbn; lia|]. intros [|i] u Hu.
    + injection Hu as <-. by exists w.
    + destruct (H i u Hu) as (w' & H1 & H2). by exists w'.
Qed.
Lemma each_row_nil (f : nat -> V -> run W) m' : each_row f [] m' <-> m' = [].
Proof. split; [intros [L _]; by apply nil_length_inv | intros ->; split; [done | by intros i v ?]]. Qed.
Lemma rows_values_from_spec (f : nat -> V -> run W) m : forall i m', rows_values_from i f m = Done m' <-> each_row (fun j => f (i + j)) m m'.
Proof.
  induction m as [|v m IH]; intros i m'.
  - rewrite each_row_nil. cbn. split; [by intros [= <-] | by intros ->].
  - cbn. split.
    + intros E. apply bind_Done_inv in E as (w & E1 & E). apply bind_Done_inv in E as (l & E2 & [= <-]).
      apply each_row_cons. rewrite Nat.add_0_r. split; [done|]. apply IH in E2. eapply each_row_ext, E2. intros j u. by rewrite <- Nat.add_succ_comm.
    + destruct m' as [|w m']; [by intros [? _]|]. intros E. apply each_row_cons in E as [E1 E2]. rewrite Nat.add_0_r in E1.
      rewrite E1, bind_Done. rewrite (proj2 (IH (S i) m')); [done|]. eapply each_row_ext, E2. intros j u. by rewrite Nat.add_succ_comm.
Qed.
Lemma rows_values_spec (f : nat -> V -> run W) m m' : rows_values f m = Done m' <-> each_row f m m'.
Proof. apply rows_values_from_spec. Qed.
End each.
Lemma rows_each_values {V} (f : nat -> V -> run V) m : forall i, rows_each_from i f m = rows_values_from i f m.
Proof. induction m as [|v m IH]; intros i; [done|]. cbn. destruct (f i v); [|done]. rewrite !bind_Done. by rewrite IH. Qed.
Lemma rows_each_spec {V} (f : nat -> V -> run V) m m' : rows_each f m = Done m' <-> each_row f m m'.
Proof. unfold rows_each. rewrite rows_each_values. apply rows_values_from_spec. Qed.

Section tried.
Context {V : Type}.
Lemma tried_rows_ext (f g : nat -> V -> run (V * result unit)) m m' res : (forall i v, f i v = g i v) -> tried_rows f m m' res <-> tried_rows g m m' res.
Proof. intros E. unfold tried_rows. destruct res; by setoid_rewrite E. Qed.
Lemma tried_rows_cons (f : nat -> V -> run (V * result unit)) v m ms res : tried_rows f (v :: m) ms res <->
  exists w ms', ms = w :: ms' /\ ((f 0 v = Done (w, Ok tt) /\ tried_rows (fun i => f (S i)) m ms' res) \/
    (exists e, f 0 v = Done (w, Err e) /\ ms' = m /\ res = Err e)).
Proof.
  unfold tried_rows. split.
  - intros (L & k & Hk & Hb & Hr). destruct ms as [|w ms]; [done|]. exists w, ms. split; [done|]. injection L as L.
    destruct k as [|k].
    + right. destruct res as [u|e]; [done|]. destruct Hr as ((v0 & w0 & [= <-] & [= <-] & E) & Hr). exists e. split; [done|]. split; [|done].
      apply list_eq. intros i. apply (Hr (S i)). lia.
    + left. destruct (Hb 0 v ltac:(lia) eq_refl) as (w' & [= <-] & E). split; [done|]. split; [done|]. exists k. cbn in Hk.
      split; [lia|]. split; [intros i u Hi; apply (Hb (S i)); lia|]. destruct res as [u|e]; [by injection Hr|].
      destruct Hr as [Hr1 Hr2]. split; [done|]. intros i Hi. apply (Hr2 (S i)). lia.
  - intros (w & ms' & -> & [(E & L & k & Hk & Hb & Hr)|(e & E & -> & ->)]).
    + split; [cbn; lia|]. exists (S k). split; [cbn; lia|]. split.
      * intros [|i] u Hi Hu; [injection Hu as <-; by exists w|]. apply (Hb i u ltac:(lia) Hu).
      * destruct res as [u|e]; [cbn; lia|]. destruct Hr as [Hr1 Hr2]. split; [done|]. intros [|i] Hi; [lia|]. apply (Hr2 i). lia.
    + split; [done|]. exists 0. split; [lia|]. split; [intros; lia|]. split; [by exists v, w|]. intros [|i] Hi; [lia|done].
Qed.
Lemma tried_rows_nil (f : nat -> V -> run (V * result unit)) ms res : tried_rows f [] ms res <-> ms = [] /\ res = Ok tt.
Proof.
  unfold tried_rows. split.
  - intros (L & k & Hk & Hb & Hr). apply nil_length_inv in L as ->. split; [done|]. destruct res as [[]|e]; [done|]. by destruct Hr as ((v & w & ? & _) & _).
  - intros [-> ->]. split; [done|]. exists 0. split; [done|]. by split; [intros i v ?; lia|].
Qed.
Lemma rows_try_from_spec (f : nat -> V -> run (V * result unit)) m : forall i ms res,
  rows_try_from i f m = Done (ms, res) <-> tried_rows (fun j => f (i + j)) m ms res.
Proof.
  induction m as [|v m IH]; intros i ms res.
  - rewrite tried_rows_nil. cbn. split; [by intros [= <- <-] | by intros [-> ->]].
  - rewrite tried_rows_cons, Nat.add_0_r. cbn. split.
    + intros E. apply bind_Done_inv in E as ([w r] & E1 & E). destruct r as [[]|e].
      * apply bind_Done_inv in E as ([l r] & E2 & [= <- <-]). exists w, l. split; [done|]. left. split; [done|].
        apply IH in E2. eapply tried_rows_ext, E2. intros j u. by rewrite <- Nat.add_succ_comm.
      * injection E as <- <-. exists w, m. split; [done|]. right. by exists e.
    + intros (w & l & -> & [[E1 E2]|(e & E1 & -> & ->)]); rewrite E1, bind_Done; [|done].
      rewrite (proj2 (IH (S i) l res)); [done|]. eapply tried_rows_ext, E2. intros j u. by rewrite Nat.add_succ_comm.
Qed.
Lemma rows_try_spec (f : nat -> V -> run (V * result unit)) m ms res : rows_try f m = Done (ms, res) <-> tried_rows f m ms res.
Proof. apply rows_try_from_spec. Qed.
Lemma rows_try_idle (f : nat -> V -> run (V * result unit)) m : forall i, (forall j v, i <= j -> f j v = Done (v, Ok tt)) -> rows_try_from i f m = Done (m, Ok tt).
Proof. induction m as [|v m IH]; intros i Hf; [done|]. cbn. rewrite Hf, bind_Done by lia. rewrite IH; [done|]. intros j u Hj. apply Hf. lia. Qed.
Lemma rows_zip_try_from_paired {W} (f : nat -> V -> W -> run (V * result unit)) m : forall pre o,
  rows_zip_try_from (length pre) f m o = rows_try_from (length pre) (paired f (pre ++ o)) m.
Proof.
  induction m as [|v m IH]; intros pre o; [by destruct o|]. destruct o as [|w o].
  - rewrite (rows_try_idle _ (v :: m)); [done|]. intros j u Hj. unfold paired. rewrite app_nil_r. by rewrite lookup_ge_None_2.
  - cbn [rows_zip_try_from rows_try_from]. assert (paired f (pre ++ w :: o) (length pre) v = f (length pre) v w) as ->
      by (unfold paired; by rewrite lookup_app_r, Nat.sub_diag by lia). destruct (f (length pre) v w) as [[x [[]|e]]|]; [|done|done].
    rewrite !bind_Done. specialize (IH (pre ++ [w]) o). rewrite app_length, Nat.add_1_r, <- app_assoc in IH. cbn in IH. by rewrite IH.
Qed.
Lemma rows_zip_try_spec {W} (f : nat -> V -> W -> run (V * result unit)) m o ms res :
  rows_zip_try f m o = Done (ms, res) <-> tried_rows (paired f o) m ms res.
Proof. unfold rows_zip_try. pose proof (rows_zip_try_from_paired f m [] o) as E. cbn in E. rewrite E. apply rows_try_spec. Qed.

Context {St : Type}.
Lemma tried_through_cons (f : nat -> St -> V -> run (V * St * result unit)) b v m b' ms res : tried_through f b (v :: m) b' ms res <->
  exists w b1 ms', ms = w :: ms' /\ ((f 0 b v = Done (w, b1, Ok tt) /\ tried_through (fun i => f (S i)) b1 m b' ms' res) \/
    (exists e, f 0 b v = Done (w, b1, Err e) /\ b1 = b' /\ ms' = m /\ res = Err e)).
Proof.
  unfold tried_through. split.
  - intros (L & bs & k & Hk & H0 & Hb & Hr). destruct ms as [|w ms]; [done|]. injection L as L.
    destruct k as [|k].
    + destruct res as [u|e]; [by destruct Hr|]. destruct Hr as ((v0 & w0 & [= <-] & [= <-] & E) & Hr). exists w, b', ms. split; [done|]. right.
      exists e. rewrite <- H0. split_and!; try done. apply list_eq. intros i. apply (Hr (S i)). lia.
    + destruct (Hb 0 v ltac:(lia) eq_refl) as (w' & [= <-] & E). exists w, (bs 1), ms. split; [done|]. left. rewrite <- H0. split; [done|].
      split; [done|]. exists (fun i => bs (S i)), k. cbn in Hk. split; [lia|]. split; [done|]. split; [intros i u Hi; apply (Hb (S i)); lia|].
      destruct res as [u|e].
      * destruct Hr as [Hr1 Hr2]. cbn in Hr1. split; [lia|done].
      * destruct Hr as [Hr1 Hr2]. split; [done|]. intros i Hi. apply (Hr2 (S i)). lia.
  - intros (w & b1 & ms' & -> & [(E & L & bs & k & Hk & H0 & Hb & Hr)|(e & E & -> & -> & ->)]).
    + split; [cbn; lia|]. exists (fun i => match i with 0 => b | S i => bs i end), (S k). split; [cbn; lia|]. split; [done|]. split.
      * intros [|i] u Hi Hu; [injection Hu as <-; exists w; by rewrite H0|]. apply (Hb i u ltac:(lia) Hu).
      * destruct res as [u|e]; [cbn; destruct Hr; split; [lia|done]|]. destruct Hr as [Hr1 Hr2]. split; [done|]. intros [|i] Hi; [lia|]. apply (Hr2 i). lia.
    + split; [done|]. exists (fun _ => b), 0. split; [lia|]. split; [done|]. split; [intros; lia|]. split; [by exists v, w|]. intros [|i] Hi; [lia|done].
Qed.
Lemma tried_through_nil (f : nat -> St -> V -> run (V * St * result unit)) b b' ms res : tried_through f b [] b' ms res <-> b' = b /\ ms = [] /\ res = Ok tt.
Proof.
  unfold tried_through. split.
  - intros (L & bs & k & Hk & H0 & Hb & Hr). apply nil_length_inv in L as ->. destruct res as [[]|e].
    + destruct Hr as [-> Hr]. cbn in Hr. by rewrite <- Hr.
    + by destruct Hr as ((v & w & ? & _) & _).
  - intros (-> & -> & ->). split; [done|]. exists (fun _ => b), 0. split; [done|]. split; [done|]. split; [intros i v ?; lia | done].
Qed.
Lemma tried_through_ext (f g : nat -> St -> V -> run (V * St * result unit)) b m b' m' res :
  (forall i b v, f i b v = g i b v) -> tried_through f b m b' m' res <-> tried_through g b m b' m' res.
Proof. intros E. unfold tried_through. destruct res; by setoid_rewrite E. Qed.
Lemma rows_buf_try_from_spec (f : nat -> St -> V -> run (V * St * result unit)) m : forall i b ms b' res,
  rows_buf_try_from i f b m = Done (ms, b', res) <-> tried_through (fun j => f (i + j)) b m b' ms res.
Proof.
  induction m as [|v m IH]; intros i b ms b' res.
  - rewrite tried_through_nil. cbn. split; [by intros [= <- <- <-] | by intros (-> & -> & ->)].
  - rewrite tried_through_cons, Nat.add_0_r. cbn. split.
    + intros E. apply bind_Done_inv in E as ([[w b1] r] & E1 & E). destruct r as [[]|e].
      * apply bind_Done_inv in E as ([[l b2] r] & E2 & [= <- <- <-]). exists w, b1, l. split; [done|]. left. split; [done|].
        apply IH in E2. eapply tried_through_ext, E2. intros j ? u. by rewrite <- Nat.add_succ_comm.
      * injection E as <- <- <-. exists w, b1, m. split; [done|]. right. by exists e.
    + intros (w & b1 & l & -> & [[E1 E2]|(e & E1 & -> & -> & ->)]); rewrite E1, bind_Done; [|done].
      rewrite (proj2 (IH (S i) b1 l b' res)); [done|]. eapply tried_through_ext, E2. intros j ? u. by rewrite Nat.add_succ_comm.
Qed.
Lemma rows_buf_try_spec (f : nat -> St -> V -> run (V * St * result unit)) m b ms b' res :
  rows_buf_try f b m = Done (ms, b', res) <-> tried_through f b m b' ms res.
Proof. apply rows_buf_try_from_spec. Qed.
Lemma rows_buf_try_idle (f : nat -> St -> V -> run (V * St * result unit)) m b : forall i,
  (forall j b v, i <= j -> f j b v = Done (v, b, Ok tt)) -> rows_buf_try_from i f b m = Done (m, b, Ok tt).
Proof. induction m as [|v m IH]; intros i Hf; [done|]. cbn. rewrite Hf, bind_Done by lia. rewrite IH; [done|]. intros j ? u Hj. apply Hf. lia. Qed.
Lemma rows_zip_buf_try_from_paired {W} (f : nat -> St -> V -> W -> run (V * St * result unit)) m : forall pre b o,
  rows_zip_buf_try_from (length pre) f b m o = rows_buf_try_from (length pre) (paired_through f (pre ++ o)) b m.
Proof.
  induction m as [|v m IH]; intros pre b o; [by destruct o|]. destruct o as [|w o].
  - rewrite (rows_buf_try_idle _ (v :: m)); [done|]. intros j ? u Hj. unfold paired_through. rewrite app_nil_r. by rewrite lookup_ge_None_2.
  - cbn [rows_zip_buf_try_from rows_buf_try_from]. assert (paired_through f (pre ++ w :: o) (length pre) b v = f (length pre) b v w) as ->
      by (unfold paired_through; by rewrite lookup_app_r, Nat.sub_diag by lia). destruct (f (length pre) b v w) as [[[x b1] [[]|e]]|]; [|done|done].
    rewrite !bind_Done. specialize (IH (pre ++ [w]) b1 o). rewrite app_length, Nat.add_1_r, <- app_assoc in IH. cbn in IH. by rewrite IH.
Qed.
Lemma rows_zip_buf_try_spec {W} (f : nat -> St -> V -> W -> run (V * St * result unit)) m o b ms b' res :
  rows_zip_buf_try f b m o = Done (ms, b', res) <-> tried_through (paired_through f o) b m b' ms res.
Proof. unfold rows_zip_buf_try. pose proof (rows_zip_buf_try_from_paired f m [] b o) as E. cbn in E. rewrite E. apply rows_buf_try_spec. Qed.
End tried.

(** ** Conversions *)
Section through.
Context {V W St : Type}.
Implicit Type f : nat -> St -> V -> run (W * St).
Lemma through_ext f g o b m b' m' : (forall i b v, f i b v = g i b v) -> through o f b m b' m' <-> through o g b m b' m'.
Proof. intros E. unfold through. by setoid_rewrite E. Qed.
Lemma forwards_cons f b v m b' ms : through first_to_last f b (v :: m) b' ms <->
  exists w b1 ms', ms = w :: ms' /\ f 0 b v = Done (w, b1) /\ through first_to_last (fun i => f (S i)) b1 m b' ms'.
Proof.
  unfold through, first_to_last. split.
  - intros (L & bs & H0 & H1 & H). destruct ms as [|w ms]; [done|]. injection L as L.
    destruct (H 0) as (v0 & w0 & [= <-] & [= <-] & E); [cbn; lia|]. exists w, (bs 1), ms. rewrite <- H0. split; [done|]. split; [done|]. split; [done|].
    exists (fun i => bs (S i)). split; [done|]. split; [done|]. intros j Hj. apply (H (S j)). cbn. lia.
  - intros (w & b1 & ms' & -> & E & L & bs & H0 & H1 & H). split; [cbn; lia|]. exists (fun i => match i with 0 => b | S i => bs i end).
    split; [done|]. split; [done|]. intros [|j] Hj; [exists v, w; by rewrite H0|]. apply (H j). cbn in Hj. lia.
Qed.
Lemma through_nil o f b b' ms : through o f b [] b' ms <-> b' = b /\ ms = [].
Proof.
  unfold through. split.
  - intros (L & bs & H0 & H1 & H). cbn in H1. apply nil_length_inv in L as ->. by rewrite <- H0, <- H1.
  - intros [-> ->]. split; [done|]. exists (fun _ => b). split; [done|]. split; [done|]. intros j Hj. cbn in Hj. lia.
Qed.
Lemma backwards_cons f b v m b' ms : through (last_to_first (length (v :: m))) f b (v :: m) b' ms <->
  exists w b1 ms', ms = w :: ms' /\ through (last_to_first (length m)) (fun i => f (S i)) b m b1 ms' /\ f 0 b1 v = Done (w, b').
Proof.
  unfold through, last_to_first. change (length (v :: m)) with (S (length m)). split.
  - intros (L & bs & H0 & H1 & H). destruct ms as [|w ms]; [done|]. cbn in L. injection L as L.
    destruct (H (length m)) as (v0 & w0 & Hv & Hw & E); [lia|]. replace (S (length m) - 1 - length m) with 0 in * by lia. injection Hv as <-. injection Hw as <-.
    exists w, (bs (length m)), ms. split; [done|]. rewrite H1 in E. split; [|done]. split; [done|]. exists bs. split; [done|]. split; [done|].
    intros j Hj. specialize (H j ltac:(lia)). replace (S (length m) - 1 - j) with (S (length m - 1 - j)) in H by lia. exact H.
  - intros (w & b1 & ms' & -> & (L & bs & H0 & H1 & H) & E). split; [cbn; lia|].
    exists (fun i => if i <=? length m then bs i else b'). split; [done|]. split.
    { rewrite (proj2 (Nat.leb_gt _ _)); [done|lia]. }
    intros j Hj. destruct (Nat.eq_dec j (length m)) as [->|Hn].
    + exists v, w. replace (S (length m) - 1 - length m) with 0 by lia. split; [done|]. split; [done|].
      rewrite Nat.leb_refl, (proj2 (Nat.leb_gt _ _)) by lia. by rewrite H1.
    + specialize (H j ltac:(lia)). replace (S (length m) - 1 - j) with (S (length m - 1 - j)) by lia.
      rewrite !(proj2 (Nat.leb_le _ _)) by lia. exact H.
Qed.
Lemma transform_array_from_spec f m : forall i b ms b', transform_array_from i f b m = Done (ms, b') <-> through first_to_last (fun j => f (i + j)) b m b' ms.
Proof.
  induction m as [|v m IH]; intros i b ms b'.
  - rewrite through_nil. cbn. split; [by intros [= <- <-] | by intros [-> ->]].
  - rewrite forwards_cons, Nat.add_0_r. cbn. split.
    + intros E. apply bind_Done_inv in E as ([w b1] & E1 & E). apply bind_Done_inv in E as ([l b2] & E2 & [= <- <-]).
      exists w, b1, l. split; [done|]. split; [done|]. apply IH in E2. eapply through_ext, E2. intros j ? u. by rewrite <- Nat.add_succ_comm.
    + intros (w & b1 & l & -> & E1 & E2). rewrite E1, bind_Done.
      rewrite (proj2 (IH (S i) b1 l b')); [done|]. eapply through_ext, E2. intros j ? u. by rewrite Nat.add_succ_comm.
Qed.
Lemma transform_vec_from_spec f m : forall i b ms b',
  transform_vec_from i f b m = Done (ms, b') <-> through (last_to_first (length m)) (fun j => f (i + j)) b m b' ms.
Proof.
  induction m as [|v m IH]; intros i b ms b'.
  - rewrite through_nil. cbn. split; [by intros [= <- <-] | by intros [-> ->]].
  - rewrite backwards_cons, Nat.add_0_r. cbn. split.
    + intros E. apply bind_Done_inv in E as ([l b1] & E1 & E). apply bind_Done_inv in E as ([w b2] & E2 & [= <- <-]).
      exists w, b1, l. split; [done|]. split; [|done]. apply IH in E1. eapply through_ext, E1. intros j ? u. by rewrite <- Nat.add_succ_comm.
    + intros (w & b1 & l & -> & E1 & E2). rewrite (proj2 (IH (S i) b l b1)), bind_Done.
      * by rewrite E2.
      * eapply through_ext, E1. intros j ? u. by rewrite Nat.add_succ_comm.
Qed.
Lemma transform_spec k f b m ms b' : transform k f b m = Done (ms, b') <-> through (visiting k (length m)) f b m b' ms.
Proof. destruct k; [apply transform_vec_from_spec | apply transform_array_from_spec ..]. Qed.
End through.

Lemma rows_buf_array {V St} (f : nat -> St -> V -> run (V * St)) m : forall i b, rows_buf_from i f b m = transform_array_from i f b m.
Proof. induction m as [|v m IH]; intros i b; [done|]. cbn. destruct (f i b v) as [[w b1]|]; [|done]. rewrite !bind_Done. by rewrite IH. Qed.
Lemma rows_buf_spec {V St} (f : nat -> St -> V -> run (V * St)) m b ms b' : rows_buf f b m = Done (ms, b') <-> through first_to_last f b m b' ms.
Proof. unfold rows_buf. rewrite rows_buf_array. apply transform_array_from_spec. Qed.

(** With errors *)
Section through_all.
Context {V W St : Type}.
Implicit Type f : nat -> St -> V -> run (W * St * result unit).
Definition overwrite (err : option error_reason) (r : result unit) : option error_reason := match r with Ok _ => err | Err e => Some e end.
Fixpoint overwritten (rs : nat -> result unit) (n : nat) : option error_reason :=
  match n with 0 => None | S n => overwrite (overwritten rs n) (rs n) end.
Lemma overwritten_spec rs n : match overwritten rs n with
  | None => forall j, j < n -> rs j = Ok tt
  | Some e => exists j, j < n /\ rs j = Err e /\ forall j', j < j' < n -> rs j' = Ok tt end.
Proof.
  induction n as [|n IH]; cbn; [intros; lia|]. unfold overwrite. destruct (rs n) as [[]|e] eqn:E.
  - destruct (overwritten rs n) as [e|].
    + destruct IH as (j & Hj & H1 & H2). exists j. split; [lia|]. split; [done|]. intros j' Hj'. destruct (Nat.eq_dec j' n) as [->|]; [done|]. apply H2. lia.
    + intros j Hj. destruct (Nat.eq_dec j n) as [->|]; [done|]. apply IH. lia.
  - exists n. split; [lia|]. split; [done|]. intros; lia.
Qed.
Lemma overwritten_unique rs n res : match res with
  | Ok _ => forall j, j < n -> rs j = Ok tt
  | Err e => exists j, j < n /\ rs j = Err e /\ forall j', j < j' < n -> rs j' = Ok tt end ->
  match overwritten rs n with None => Ok tt | Some e => Err e end = res.
Proof.
  pose proof (overwritten_spec rs n) as S. destruct (overwritten rs n) as [e|], res as [[]|e']; intros H.
  - destruct S as (j & Hj & H1 & _). rewrite H in H1; [done|lia].
  - destruct S as (j & Hj & H1 & H2), H as (j' & Hj' & H1' & H2'). destruct (lt_eq_lt_dec j j') as [[Hl| ->]|Hl].
    + rewrite H2 in H1'; [done|lia].
    + rewrite H1 in H1'. by injection H1' as ->.
    + rewrite H2' in H1; [done|lia].
  - done.
  - destruct H as (j' & Hj' & H1' & _). rewrite S in H1'; [done|lia].
Qed.
Lemma through_converting o f b m b' ms err : through o (converting f) (b, None) m (b', err) ms <->
  length ms = length m /\ exists (bs : nat -> St) (rs : nat -> result unit), bs 0 = b /\ bs (length m) = b' /\ err = overwritten rs (length m) /\
    forall j, j < length m -> exists v w, m !! o j = Some v /\ ms !! o j = Some w /\ f (o j) (bs j) v = Done (w, bs (S j), rs j).
Proof.
  unfold through. split.
  - intros (L & bs & H0 & H1 & H). split; [done|].
    assert (exists rs : nat -> result unit, forall j, j < length m -> exists v w, m !! o j = Some v /\ ms !! o j = Some w /\
      f (o j) (fst (bs j)) v = Done (w, fst (bs (S j)), rs j) /\ snd (bs (S j)) = overwrite (snd (bs j)) (rs j)) as [rs Hrs].
    { exists (fun j => match m !! o j with Some v => match f (o j) (fst (bs j)) v with Done (_, _, r) => r | Panicked => Ok tt end | None => Ok tt end).
      intros j Hj. destruct (H j Hj) as (v & w & Hv & Hw & E). exists v, w. split; [done|]. split; [done|]. rewrite Hv. unfold converting in E.
      destruct (f (o j) (fst (bs j)) v) as [[[w' b1] r]|]; [|done]. rewrite bind_Done in E. injection E as -> E. rewrite <- E. cbn. split; [done|]. by destruct r. }
    exists (fun j => fst (bs j)), rs. rewrite H0, H1. split; [done|]. split; [done|]. split.
    + assert (forall j, j <= length m -> snd (bs j) = overwritten rs j) as E.
      { induction j as [|j IH]; intros Hj; [by rewrite H0|]. destruct (Hrs j ltac:(lia)) as (_ & _ & _ & _ & _ & E). rewrite E, IH by lia. done. }
      rewrite <- E, H1; done.
    + intros j Hj. destruct (Hrs j Hj) as (v & w & ? & ? & ? & _). by exists v, w.
  - intros (L & bs & rs & H0 & H1 & -> & H). split; [done|]. exists (fun j => (bs j, overwritten rs j)). rewrite H0, H1. split; [done|]. split; [done|].
    intros j Hj. destruct (H j Hj) as (v & w & Hv & Hw & E). exists v, w. split; [done|]. split; [done|]. unfold converting. cbn. by rewrite E.
Qed.
Lemma transform_res_spec k f b m ms b' res : transform_res k f b m = Done (ms, b', res) <-> through_all (visiting k (length m)) f b m b' ms res.
Proof.
  assert (forall o (tr : (nat -> St * option error_reason -> V -> run (W * (St * option error_reason))) -> St * option error_reason -> list V ->
      run (list W * (St * option error_reason))), (forall ms b', tr (converting f) (b, None) m = Done (ms, b') <-> through o (converting f) (b, None) m b' ms) ->
    ('(ws, (s, err)) ← (tr (converting f) (b, None) m : run (list W * (St * option error_reason)));
      Done (ws, s, match err with None => Ok tt | Some e => Err e end)) = Done (ms, b', res) <-> through_all o f b m b' ms res) as Hmain.
  { intros o tr Htr. split.
    - intros E. apply bind_Done_inv in E as ([ws [s err]] & E1 & [= -> -> <-]). apply Htr, through_converting in E1 as (L & bs & rs & H0 & H1 & -> & H).
      split; [done|]. exists bs, rs. split; [done|]. split; [done|]. split; [done|].
      pose proof (overwritten_spec rs (length m)) as S. by destruct (overwritten rs (length m)).
    - intros (L & bs & rs & H0 & H1 & H & Hres).
      rewrite (proj2 (Htr ms (b', overwritten rs (length m)))).
      + rewrite bind_Done. by rewrite (overwritten_unique _ _ _ Hres).
      + apply through_converting. split; [done|]. by exists bs, rs. }
  destruct k; [apply (Hmain _ transform_vec) | apply (Hmain _ transform_array) ..]; intros ms' b2;
    [apply transform_vec_from_spec | apply transform_array_from_spec ..].
Qed.
End through_all.

(** ** Results *)
Section collected.
Context {V X : Type}.
Implicit Type f : nat -> V -> run (result X).
Lemma collected_ext f g m res : (forall i v, f i v = g i v) -> collected f m res <-> collected g m res.
Proof. intros E. unfold collected. destruct res; by setoid_rewrite E. Qed.
Lemma collected_cons f v m res : collected f (v :: m) res <->
  (exists x, f 0 v = Done (Ok x) /\ exists rest, collected (fun i => f (S i)) m rest /\ res = match rest with Ok l => Ok (x :: l) | Err e => Err e end) \/
  (exists e, f 0 v = Done (Err e) /\ res = Err e).
Proof.
  unfold collected. split.
  - destruct res as [l|e].
    + intros [L H]. left. destruct (H 0 v eq_refl) as (x & Hx & E). exists x. split; [done|]. destruct l as [|y l]; [done|]. injection Hx as ->. injection L as L.
      exists (Ok l). split; [|done]. split; [done|]. intros i u Hu. apply (H (S i) u Hu).
    + intros (k & v0 & Hv & E & H). destruct k as [|k].
      * right. injection Hv as <-. by exists e.
      * left. destruct (H 0 v ltac:(lia) eq_refl) as (x & E0). exists x. split; [done|]. exists (Err e). split; [|done].
        exists k, v0. split; [done|]. split; [done|]. intros i u Hi Hu. apply (H (S i)); [lia|done].
  - intros [(x & E & rest & Hrest & ->)|(e & E & ->)].
    + destruct rest as [l|e].
      * destruct Hrest as [L H]. split; [cbn; lia|]. intros [|i] u Hu; [injection Hu as <-; by exists x|]. apply (H i u Hu).
      * destruct Hrest as (k & v0 & Hv & E' & H). exists (S k), v0. split; [done|]. split; [done|].
        intros [|i] u Hi Hu; [injection Hu as <-; by exists x|]. apply (H i u); [lia|done].
    + exists 0, v. split; [done|]. split; [done|]. intros; lia.
Qed.
Lemma collected_nil f res : collected f [] res <-> res = Ok [].
Proof.
  unfold collected. split; [|intros ->; split; [done|by intros ? ? ?]]. destruct res as [l|e]; [intros [L _]; by apply nil_length_inv in L as ->|].
  by intros (k & v & ? & _).
Qed.
Lemma rows_collect_from_spec f m : forall i res, rows_collect_from i f m = Done res <-> collected (fun j => f (i + j)) m res.
Proof.
  induction m as [|v m IH]; intros i res.
  - rewrite collected_nil. cbn. split; [by intros [= <-] | by intros ->].
  - rewrite collected_cons, Nat.add_0_r. cbn. split.
    + intros E. apply bind_Done_inv in E as ([x|e] & E1 & E).
      * apply bind_Done_inv in E as (rest & E2 & [= <-]). left. exists x. split; [done|]. exists rest. split; [|by destruct rest].
        apply IH in E2. eapply collected_ext, E2. intros j u. by rewrite <- Nat.add_succ_comm.
      * injection E as <-. right. by exists e.
    + intros [(x & E & rest & Hrest & ->)|(e & E & ->)]; rewrite E, bind_Done; [|done].
      rewrite (proj2 (IH (S i) rest)); [by destruct rest|]. eapply collected_ext, Hrest. intros j u. by rewrite Nat.add_succ_comm.
Qed.
Lemma rows_collect_spec f m res : rows_collect f m = Done res <-> collected f m res.
Proof. apply rows_collect_from_spec. Qed.
Lemma values_of_ok k (l : list X) (m : list V) : rows_ok k m -> length l = length m -> values_of k l = Done l.
Proof. destruct k; cbn; [done|..]; intros E L; unfold into_fixed_length; rewrite L, E; cbn; f_equal; by rewrite ?take_0. Qed.
End collected.
Lemma rows_zip_collect_from_spec {V W X} (f : nat -> V -> W -> run (result X)) m : forall i o,
  rows_zip_collect_from i f m o = rows_collect_from i (fun i vo => f i (fst vo) (snd vo)) (zip m o).
Proof. induction m as [|v m IH]; intros i [|w o]; try done. cbn. destruct (f i v w) as [[x|e]|]; [|done|done]. rewrite !bind_Done. by rewrite IH. Qed.
Lemma rows_zip_collect_spec {V W X} (f : nat -> V -> W -> run (result X)) m o res :
  rows_zip_collect f m o = Done res <-> collected (fun i vo => f i (fst vo) (snd vo)) (zip m o) res.
Proof. unfold rows_zip_collect. rewrite rows_zip_collect_from_spec. apply rows_collect_spec. Qed.

(** ** Destinations *)
Section dest.
Context {V W : Type}.
(** The destination [o] of row number [i]; destinations without a row stay as they are. *)
Lemma rows_zip_each_idle (f : nat -> V -> W -> run W) pre (dst : list W) : forall i, length pre <= i ->
  rows_values_from i (fun i o => match pre !! i with Some v => f i v o | None => Done o end) dst = Done dst.
Proof. induction dst as [|o dst IH]; intros i Hi; [done|]. cbn. rewrite lookup_ge_None_2, bind_Done by done. by rewrite IH by lia. Qed.
Lemma rows_zip_each_from_values (f : nat -> V -> W -> run W) dst : forall pre m,
  rows_zip_each_from (length pre) f m dst = rows_values_from (length pre) (fun i o => match (pre ++ m) !! i with Some v => f i v o | None => Done o end) dst.
Proof.
  induction dst as [|o dst IH]; intros pre m; [by destruct m|]. destruct m as [|v m].
  - rewrite app_nil_r. by rewrite (rows_zip_each_idle f pre (o :: dst)).
  - cbn [rows_zip_each_from rows_values_from].
    assert ((match (pre ++ v :: m) !! length pre with Some v => f (length pre) v o | None => Done o end) = f (length pre) v o) as ->
      by (by rewrite lookup_app_r, Nat.sub_diag by lia). destruct (f (length pre) v o) as [o'|]; [|done]. rewrite !bind_Done.
    specialize (IH (pre ++ [v]) m). rewrite app_length, Nat.add_1_r, <- app_assoc in IH. cbn [app] in IH. by rewrite IH.
Qed.
Lemma rows_zip_each_spec (f : nat -> V -> W -> run W) m dst dst' : rows_zip_each f m dst = Done dst' <->
  each_row (fun i o => match m !! i with Some v => f i v o | None => Done o end) dst dst'.
Proof. unfold rows_zip_each. pose proof (rows_zip_each_from_values f dst [] m) as E. cbn in E. rewrite E. apply rows_values_spec. Qed.

Lemma rows_zip_two_from_spec (f : nat -> V -> W -> W -> run (W * W)) m : forall i d1 d2 d1' d2',
  rows_zip_two_from i f m d1 d2 = Done (d1', d2') <->
  length d1' = length d1 /\ length d2' = length d2 /\ forall j,
    match m !! j, d1 !! j, d2 !! j with
    | Some v, Some x, Some y => exists x' y', d1' !! j = Some x' /\ d2' !! j = Some y' /\ f (i + j) v x y = Done (x', y')
    | _, _, _ => d1' !! j = d1 !! j /\ d2' !! j = d2 !! j
    end.
Proof.
  induction m as [|v m IH]; intros i d1 d2 d1' d2'.
  - assert (rows_zip_two_from i f [] d1 d2 = Done (d1, d2)) as -> by (by destruct d1, d2). split.
    + intros [= <- <-]. split; [done|]. split; [done|]. intros j. done.
    + intros (_ & _ & H). f_equal. f_equal; apply list_eq; intros j; specialize (H j); destruct H; done.
  - destruct d1 as [|x d1], d2 as [|y d2];
      [ | | | ].
    1-3: cbn [rows_zip_two_from]; split; [intros [= <- <-]; split; [done|]; split; [done|]; intros j; destruct ((v :: m) !! j); cbn; try done; by destruct (_ !! j)
      | intros (_ & _ & H); f_equal; f_equal; apply list_eq; intros j; specialize (H j); destruct ((v :: m) !! j); cbn in H; try (by destruct H);
        destruct (_ !! j); by destruct H].
    cbn [rows_zip_two_from]. split.
    + intros E. apply bind_Done_inv in E as ([x' y'] & E1 & E). apply bind_Done_inv in E as ([l1 l2] & E2 & [= <- <-]).
      apply IH in E2 as (L1 & L2 & H). split; [cbn; lia|]. split; [cbn; lia|]. intros [|j].
      * cbn. exists x', y'. by rewrite Nat.add_0_r.
      * specialize (H j). cbn. by rewrite <- Nat.add_succ_comm.
    + destruct d1' as [|x' d1'], d2' as [|y' d2']; try (by intros (? & ? & _)). intros (L1 & L2 & H).
      destruct (H 0) as (x1 & y1 & Hx & Hy & E). cbn in Hx, Hy. injection Hx as <-. injection Hy as <-. rewrite Nat.add_0_r in E. rewrite E, bind_Done.
      rewrite (proj2 (IH (S i) d1 d2 d1' d2')); [done|]. split; [cbn in L1; lia|]. split; [cbn in L2; lia|]. intros j. specialize (H (S j)). cbn in H.
      by rewrite Nat.add_succ_comm.
Qed.
End dest.
