(** Model of the precise statistics and sums of f32 vectors (vector/src/vector_types/general/precise_stats.rs): every element is converted to f64 ([widen])
    and added in f64. [A] is f32, [B] is f64. No proofs here. *)
From Verif Require Export Model_Stats.

Section f32.
Context {A B : Type} `{Num A} `{Num B} `{Flt B} (widen : A -> B).

(** precise_stats.rs:380-382, 545-547: [Complex64::new(f64::from(n.re), f64::from(n.im))] *)
Definition widen_complex (c : A * A) : B * B := (widen (fst c), widen (snd c)).

(** precise_stats.rs:143-151, 378-386: the worker *)
Definition widened_worker {Q P} `{StatOps P} (w : Q -> P) (start : nat) (l : list Q) : statistics P :=
  fst (foldl (fun '(st, j) x => (stats_add st (w x) j, j + 1)) (stats_empty, start) l).
(** precise_stats.rs:181-192, 425-437: the worker *)
Definition widened_split_worker {Q P} `{StatOps P} (w : Q -> P) (k start : nat) (l : list Q) : run (list (statistics P)) :=
  r ← foldl (fun m x => '(results, j) ← m; i ← umod j k; st ← rd results i;
                        results ← wr results i (stats_add st (w x) (j / k)); Done (results, j + 1))
        (Done (replicate k stats_empty, start)) l;
  Done (fst r).

(** precise_stats.rs:134-156 *)
Definition vstatistics_prec32 (s : settings) (order : list nat) (v : dvec A) : run (statistics B) :=
  array ← slice (elems v) 0 (len v);
  chunks ← get_chunked_results Small s order array 1 (fun piece range => Done (widened_worker widen (fst range) piece));
  Done (stats_merge chunks).
(** precise_stats.rs:369-391 *)
Definition vstatistics_prec32_complex (s : settings) (order : list nat) (v : dvec A) : run (statistics (B * B)) :=
  array ← slice (elems v) 0 (len v);
  chunks ← get_chunked_results Small s order array 2
    (fun piece range => c ← array_to_complex piece; Done (widened_worker widen_complex (fst range / 2) c));
  Done (stats_merge chunks).
(** precise_stats.rs:166-197 *)
Definition vstatistics_split_prec32 (s : settings) (order : list nat) (v : dvec A) (k : nat) : run (result (list (statistics B))) :=
  if k =? 0 then Done (Ok [])
  else if STATS_VEC_CAPACITY <? k then Done (Err InvalidArgumentLength)
  else
    array ← slice (elems v) 0 (len v);
    chunks ← get_chunked_results Small s order array 1 (fun piece range => widened_split_worker widen k (fst range) piece);
    r ← merge_cols chunks;
    Done (Ok r).
(** precise_stats.rs:402-440 *)
Definition vstatistics_split_prec32_complex (s : settings) (order : list nat) (v : dvec A) (k : nat) : run (result (list (statistics (B * B)))) :=
  if k =? 0 then Done (Ok [])
  else if STATS_VEC_CAPACITY <? k then Done (Err InvalidArgumentLength)
  else
    array ← slice (elems v) 0 (len v);
    chunks ← get_chunked_results Small s order array 2
      (fun piece range => c ← array_to_complex piece; widened_split_worker widen_complex k (fst range / 2) c);
    r ← merge_cols chunks;
    Done (Ok r).

(** precise_stats.rs:284-302 *)
Definition vsum_prec32 (s : settings) (order : list nat) (v : dvec A) : run B :=
  array ← slice (elems v) 0 (len v);
  chunks ← get_chunked_results Small s order array 1 (fun piece _ => Done (foldl (fun sum n => sum + widen n)%num n0 piece));
  Done (foldl nadd n0 chunks).
(** precise_stats.rs:304-323 *)
Definition vsum_sq_prec32 (s : settings) (order : list nat) (v : dvec A) : run B :=
  array ← slice (elems v) 0 (len v);
  chunks ← get_chunked_results Small s order array 1 (fun piece _ => Done (foldl (fun sum n => let t := widen n in sum + t * t)%num n0 piece));
  Done (foldl nadd n0 chunks).
(** precise_stats.rs:532-551 *)
Definition vsum_prec32_complex (s : settings) (order : list nat) (v : dvec A) : run (B * B) :=
  array ← slice (elems v) 0 (len v);
  chunks ← get_chunked_results Small s order array 2
    (fun piece _ => c ← array_to_complex piece; Done (foldl (fun sum n => cadd sum (widen_complex n)) (n0, n0) c));
  Done (foldl cadd (n0, n0) chunks).
(** precise_stats.rs:553-573 *)
Definition vsum_sq_prec32_complex (s : settings) (order : list nat) (v : dvec A) : run (B * B) :=
  array ← slice (elems v) 0 (len v);
  chunks ← get_chunked_results Small s order array 2
    (fun piece _ => c ← array_to_complex piece;
       Done (foldl (fun sum n => let t := widen_complex n in cadd sum (cmul t t)) (n0, n0) c));
  Done (foldl cadd (n0, n0) chunks).
End f32.
