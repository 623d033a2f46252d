(** Model of the matrix crate: matrix/src. No proofs here.

    A matrix is the list of its rows; the four matrix types only differ in where the rows are stored, except for [transform] and [transform_res]. *)
From Verif Require Export Model_Overlap Model_Stats Model_Complex Model_Real.

(** ** Loops over the rows *)
Section rows.
Context {V W X St : Type}.

(** [for v in self.rows_mut() { v.op(..) }], for example matrix/src/general/elementary.rs:8-12. The row number stands for what may differ between the
    rows: addresses and schedules. *)
Fixpoint rows_each_from (i : nat) (op : nat -> V -> run V) (m : list V) : run (list V) :=
  match m with
  | [] => Done []
  | v :: m => v ← op i v; m ← rows_each_from (S i) op m; Done (v :: m)
  end.
(** Lines at [rows_each_from]: matrix/src/general/elementary.rs:8-12 *)
Definition rows_each := rows_each_from 0.

(** [for v in self.rows_mut() { v.op(..)?; } Ok(())]: matrix/src/general/elementary.rs:84-90. The first error ends the loop. *)
Fixpoint rows_try_from (i : nat) (op : nat -> V -> run (V * result unit)) (m : list V) : run (list V * result unit) :=
  match m with
  | [] => Done ([], Ok tt)
  | v :: m =>
      '(v, res) ← op i v;
      match res with
      | Err e => Done (v :: m, Err e)
      | Ok _ => '(m, res) ← rows_try_from (S i) op m; Done (v :: m, res)
      end
  end.
(** matrix/src/general/elementary.rs:84-90 *)
Definition rows_try := rows_try_from 0.

(** [for (v, o) in self.rows_mut().iter_mut().zip(other.rows()) { v.op(o)?; } Ok(())]: matrix/src/general/elementary.rs:48-54. The loop ends with the
    shorter one of the two matrices. *)
Fixpoint rows_zip_try_from (i : nat) (op : nat -> V -> W -> run (V * result unit)) (m : list V) (o : list W) : run (list V * result unit) :=
  match m, o with
  | v :: m, w :: o =>
      '(v, res) ← op i v w;
      match res with
      | Err e => Done (v :: m, Err e)
      | Ok _ => '(m, res) ← rows_zip_try_from (S i) op m o; Done (v :: m, res)
      end
  | m, _ => Done (m, Ok tt)
  end.
(** matrix/src/general/elementary.rs:48-54 *)
Definition rows_zip_try := rows_zip_try_from 0.

(** [for (o, v) in destination.rows_mut().iter_mut().zip(self.rows()) { v.op(o); }]: matrix/src/complex.rs:123-127 *)
Fixpoint rows_zip_each_from (i : nat) (op : nat -> V -> W -> run W) (m : list V) (dest : list W) : run (list W) :=
  match m, dest with
  | v :: m, o :: dest => o ← op i v o; dest ← rows_zip_each_from (S i) op m dest; Done (o :: dest)
  | _, dest => Done dest
  end.
(** matrix/src/complex.rs:123-127 *)
Definition rows_zip_each := rows_zip_each_from 0.

(** [for v in self.rows_mut() { v.op(buffer, ..) }]: matrix/src/time_freq.rs:343-352; [St] is the buffer. *)
Fixpoint rows_buf_from (i : nat) (op : nat -> St -> V -> run (V * St)) (b : St) (m : list V) : run (list V * St) :=
  match m with
  | [] => Done ([], b)
  | v :: m => '(v, b) ← op i b v; '(m, b) ← rows_buf_from (S i) op b m; Done (v :: m, b)
  end.
(** matrix/src/time_freq.rs:343-352 *)
Definition rows_buf := rows_buf_from 0.

(** [for v in self.rows() { result.push(v.op(..)?) }]: matrix/src/general/mod.rs:15-23; [into_fixed_length] (lib.rs:340-365) keeps the order. *)
Fixpoint rows_collect_from (i : nat) (op : nat -> V -> run (result X)) (m : list V) : run (result (list X)) :=
  match m with
  | [] => Done (Ok [])
  | v :: m =>
      r ← op i v;
      match r with
      | Err e => Done (Err e)
      | Ok x => rest ← rows_collect_from (S i) op m;
                Done (match rest with Err e => Err e | Ok l => Ok (x :: l) end)
      end
  end.
(** matrix/src/general/mod.rs:15-23 *)
Definition rows_collect := rows_collect_from 0.

(** [for v in self.rows() { result.push(v.op()) }]: matrix/src/general/statistics.rs:10-18 *)
Fixpoint rows_values_from (i : nat) (op : nat -> V -> run X) (m : list V) : run (list X) :=
  match m with
  | [] => Done []
  | v :: m => x ← op i v; l ← rows_values_from (S i) op m; Done (x :: l)
  end.
(** matrix/src/general/statistics.rs:10-18 *)
Definition rows_values := rows_values_from 0.

(** [for v in self.rows_mut() { v.op(buffer, ..)?; } Ok(())]: matrix/src/time_freq.rs:421-431 *)
Fixpoint rows_buf_try_from (i : nat) (op : nat -> St -> V -> run (V * St * result unit)) (b : St) (m : list V) : run (list V * St * result unit) :=
  match m with
  | [] => Done ([], b, Ok tt)
  | v :: m =>
      '(v, b, res) ← op i b v;
      match res with
      | Err e => Done (v :: m, b, Err e)
      | Ok _ => '(m, b, res) ← rows_buf_try_from (S i) op b m; Done (v :: m, b, res)
      end
  end.
(** matrix/src/time_freq.rs:421-431 *)
Definition rows_buf_try := rows_buf_try_from 0.

(** [for (v, o) in self.rows_mut().iter_mut().zip(other.rows()) { v.op(buffer, o)?; } Ok(())]: matrix/src/time_freq.rs:258-262 *)
Fixpoint rows_zip_buf_try_from (i : nat) (op : nat -> St -> V -> W -> run (V * St * result unit)) (b : St) (m : list V) (o : list W) :
    run (list V * St * result unit) :=
  match m, o with
  | v :: m, w :: o =>
      '(v, b, res) ← op i b v w;
      match res with
      | Err e => Done (v :: m, b, Err e)
      | Ok _ => '(m, b, res) ← rows_zip_buf_try_from (S i) op b m o; Done (v :: m, b, res)
      end
  | m, _ => Done (m, b, Ok tt)
  end.
(** matrix/src/time_freq.rs:258-262 *)
Definition rows_zip_buf_try := rows_zip_buf_try_from 0.

(** [for ((r, i), v) in real.rows_mut().iter_mut().zip(imag.rows_mut()).zip(self.rows()) { v.op(r, i); }]: matrix/src/complex.rs:153-161 *)
Fixpoint rows_zip_two_from (i : nat) (op : nat -> V -> W -> W -> run (W * W)) (m : list V) (d1 d2 : list W) : run (list W * list W) :=
  match d1, d2, m with
  | r :: d1, q :: d2, v :: m =>
      '(r, q) ← op i v r q; '(d1, d2) ← rows_zip_two_from (S i) op m d1 d2; Done (r :: d1, q :: d2)
  | d1, d2, _ => Done (d1, d2)
  end.
(** matrix/src/complex.rs:153-161 *)
Definition rows_zip_two := rows_zip_two_from 0.

(** [for (v, o) in self.rows().iter().zip(factor.rows()) { result.push(v.op(o)?) }]: matrix/src/general/mod.rs:17-23 *)
Fixpoint rows_zip_collect_from (i : nat) (op : nat -> V -> W -> run (result X)) (m : list V) (o : list W) : run (result (list X)) :=
  match m, o with
  | v :: m, w :: o =>
      r ← op i v w;
      match r with
      | Err e => Done (Err e)
      | Ok x => rest ← rows_zip_collect_from (S i) op m o;
                Done (match rest with Err e => Err e | Ok l => Ok (x :: l) end)
      end
  | _, _ => Done (Ok [])
  end.
(** matrix/src/general/mod.rs:17-23 *)
Definition rows_zip_collect := rows_zip_collect_from 0.

(** [transform] of [Vec]: matrix/src/lib.rs:197-208. The rows are popped from the end, converted, pushed and the result is reversed. [St] is what the
    closure mutates. *)
Fixpoint transform_vec_from (i : nat) (op : nat -> St -> V -> run (W * St)) (s : St) (m : list V) : run (list W * St) :=
  match m with
  | [] => Done ([], s)
  | v :: m => '(ws, s) ← transform_vec_from (S i) op s m; '(w, s) ← op i s v; Done (w :: ws, s)
  end.
(** matrix/src/lib.rs:197-208 *)
Definition transform_vec := transform_vec_from 0.
(** [transform] of arrays: matrix/src/lib.rs:232-243, 266-279, 304-318 *)
Fixpoint transform_array_from (i : nat) (op : nat -> St -> V -> run (W * St)) (s : St) (m : list V) : run (list W * St) :=
  match m with
  | [] => Done ([], s)
  | v :: m => '(w, s) ← op i s v; '(ws, s) ← transform_array_from (S i) op s m; Done (w :: ws, s)
  end.
(** matrix/src/lib.rs:232-243, 266-279, 304-318 *)
Definition transform_array := transform_array_from 0.
End rows.

(** [transform_res]: matrix/src/lib.rs:210-226 (with [try_conv], 181-192), 248-263, 283-300, 323-341. An error overwrites the previous one. *)
Definition converting {V W St} (op : nat -> St -> V -> run (W * St * result unit)) (i : nat) (s : St * option error_reason) (v : V) :
    run (W * (St * option error_reason)) :=
  '(w, s', res) ← op i (fst s) v;
  Done (w, (s', match res with Ok _ => snd s | Err e => Some e end)).
(** matrix/src/lib.rs:210-226 *)
Definition transform_vec_res {V W St} (op : nat -> St -> V -> run (W * St * result unit)) (s : St) (m : list V) : run (list W * St * result unit) :=
  '(ws, (s, err)) ← transform_vec (converting op) (s, None) m;
  Done (ws, s, match err with None => Ok tt | Some e => Err e end).
(** matrix/src/lib.rs:245-260, 281-298, 320-338 *)
Definition transform_array_res {V W St} (op : nat -> St -> V -> run (W * St * result unit)) (s : St) (m : list V) : run (list W * St * result unit) :=
  '(ws, (s, err)) ← transform_array (converting op) (s, None) m;
  Done (ws, s, match err with None => Ok tt | Some e => Err e end).

(** The four matrix types: matrix/src/lib.rs:32-74 *)
Inductive mkind := MatrixMxN | Matrix2xN | Matrix3xN | Matrix4xN.
(** matrix/src/lib.rs:161-169, 195-338 (the implementation for the rows of each matrix type) *)
Definition transform {V W St} (k : mkind) : (nat -> St -> V -> run (W * St)) -> St -> list V -> run (list W * St) :=
  match k with MatrixMxN => transform_vec | _ => transform_array end.
(** matrix/src/lib.rs:166-168, 210-226, 245-260, 281-298, 320-338 *)
Definition transform_res {V W St} (k : mkind) : (nat -> St -> V -> run (W * St * result unit)) -> St -> list V -> run (list W * St * result unit) :=
  match k with MatrixMxN => transform_vec_res | _ => transform_array_res end.

(** [into_fixed_length]: matrix/src/lib.rs:342-365: pops [n] values from the end; [pop().unwrap()] panics if there are too few. *)
Definition into_fixed_length {X} (n : nat) (l : list X) : run (list X) :=
  if n <=? length l then Done (drop (length l - n) l) else Panicked.
(** The result of a method which returns one value per row: a [Vec] or an array. *)
(** matrix/src/general/statistics.rs:4-137, 240-374 *)
Definition values_of {X} (k : mkind) (l : list X) : run (list X) :=
  match k with
  | MatrixMxN => Done l
  | Matrix2xN => into_fixed_length 2 l
  | Matrix3xN => into_fixed_length 3 l
  | Matrix4xN => into_fixed_length 4 l
  end.
(** matrix/src/general/mod.rs:9-295 *)
Definition results_of {X} (k : mkind) (r : result (list X)) : run (result (list X)) :=
  match r with Err e => Done (Err e) | Ok l => l ← values_of k l; Done (Ok l) end.

Section matrix.
Context {A : Type} `{Num A} `{Flt A} `{Rem A} `{Trig A} `{F : Fft A}.
Notation matrix := (list (dvec A)).

(** ** mat_impl.rs *)
(** matrix/src/mat_impl.rs:47-53 *)
Definition mat_domain (m : matrix) : ddomain := match m with [] => Time | v :: _ => vdomain v end.
(** matrix/src/mat_impl.rs:55-61 *)
Definition mat_is_complex (m : matrix) : bool := match m with [] => false | v :: _ => is_complex v end.
(** matrix/src/mat_impl.rs:68-74 *)
Definition mat_resize (m : matrix) (l : nat) : run (matrix * result unit) := rows_try (fun _ v => Done (Model_Vec.resize n0 v l)) m.
(** matrix/src/mat_impl.rs:81-87 *)
Definition mat_delta (m : matrix) : A := match m with [] => n0 | v :: _ => delta v end.
(** matrix/src/mat_impl.rs:89-93 *)
Definition mat_set_delta (m : matrix) (d : A) : run matrix := rows_each (fun _ v => Done (set_delta v d)) m.
(** matrix/src/mat_impl.rs:95-101, 103-109 *)
Definition row_len (m : matrix) : nat := match m with [] => 0 | v :: _ => len v end.
(** matrix/src/mat_impl.rs:103-109 *)
Definition row_points (m : matrix) : nat := match m with [] => 0 | v :: _ => points v end.

(** ** Convolution with a matrix of impulse responses *)

(** matrix/src/time_freq.rs:444-457: the loop over [impulse_response.iter().zip(0..col_len)] *)
Fixpoint mat_convolve_loop (rows : matrix) (rl : nat) (imps : list matrix) (n col_len : nat) (target : list A) : run (list A * result unit) :=
  match imps, col_len with
  | i :: imps, S col_len =>
      part ← slice target (n * rl) ((n + 1) * rl);
      '(part, res) ← convolve_mat rows i part;
      target ← splice target (n * rl) part;
      match res with
      | Err e => Done (target, Err e)
      | Ok _ => mat_convolve_loop rows rl imps (n + 1) col_len target
      end
  | _, _ => Done (target, Ok tt)
  end.
(** matrix/src/time_freq.rs:439-467. The buffer is not traded; what is left in it is not modelled. *)
Definition mat_convolve_signal (b : buffer A) (m : matrix) (imps : list matrix) : run (matrix * buffer A * result unit) :=
  let rl := row_len m in
  target ← borrow n0 b (rl * length m);
  '(target, res) ← mat_convolve_loop m rl imps 0 (length m) target;
  match res with
  | Err e => Done (m, give_back b target, Err e)
  | Ok _ =>
      m ← rows_each (fun n v =>
            _ ← vdata v;
            part ← slice target (n * rl) ((n + 1) * rl);
            l ← copy_into (elems v) 0 (valid_len v) part;
            Done (set_elems v l)) m;
      Done (m, give_back b target, Ok tt)
  end.
End matrix.
Notation matrix A := (list (dvec A)).
