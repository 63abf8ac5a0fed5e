(** * Model of the exact ground truth computation (src/aux_compute_groundtruth.cpp).

    The distances computed by BLAS (lines 68-102) are an arbitrary function [dmat query
    point].  The arrays closest_points and dist_closest_points, always written together
    at the same index, are one array of pairs. *)
From Coq Require Import List Arith Bool Floats.SpecFloat.
From Verif Require Import Base Float32 ClosestModel.
Import ListNotations.

(** Operations of the priority queue, see HeapSpec.v. *)
Notation pair_if := (nat * f32)%type.
Definition push_op : Type := pair_if -> list pair_if -> list pair_if.
Definition take_op : Type := list pair_if -> option (pair_if * list pair_if).

(** dist_matrix[p + (q - q_b) * npoints]: an index outside the query's column is
    treated as undefined. *)
Definition col (npoints : nat) (row : nat -> f32) (p : nat) : res f32 := if p <? npoints then Ok (row p) else UB.

(** src/aux_compute_groundtruth.cpp:139-142 *)
Fixpoint knn_fill (pushf : push_op) (npoints : nat) (row : nat -> f32) (p cnt : nat) (h : list pair_if) : res (list pair_if) :=
  match cnt with
  | O => Ok h
  | S cnt' => do d <- col npoints row p; knn_fill pushf npoints row (S p) cnt' (pushf (p, d) h)
  end.

(** src/aux_compute_groundtruth.cpp:143-152 *)
Fixpoint knn_scan (pushf : push_op) (takef : take_op) (k npoints : nat) (row : nat -> f32) (p cnt : nat) (h : list pair_if) : res (list pair_if) :=
  match cnt with
  | O => Ok h
  | S cnt' =>
      do t <- match takef h with Some (x, _) => Ok x | None => UB end;
      do d <- col npoints row p;
      let h1 := if fgt (snd t) d then pushf (p, d) h else h in
      do h2 <- (if k <? length h1 then match takef h1 with Some (_, r) => Ok r | None => UB end else Ok h1);
      knn_scan pushf takef k npoints row (S p) cnt' h2
  end.

(** src/aux_compute_groundtruth.cpp:153-160: [cnt] to go, so k - 1 - l is cnt - 1. *)
Fixpoint knn_emit (takef : take_op) (k q cnt : nat) (h : list pair_if) (out : list pair_if) : res (list pair_if) :=
  match cnt with
  | O => Ok out
  | S cnt' =>
      do xr <- match takef h with Some xr => Ok xr | None => UB end;
      do out' <- wr out (cnt' + q * k) (fst xr);
      knn_emit takef k q cnt' (snd xr) out'
  end.

(** src/aux_compute_groundtruth.cpp:138-160: one query. *)
Definition knn_query (pushf : push_op) (takef : take_op) (k npoints : nat) (dmat : nat -> nat -> f32) (q : nat) (out : list pair_if) : res (list pair_if) :=
  do h <- knn_fill pushf npoints (dmat q) 0 k [];
  do h <- knn_scan pushf takef k npoints (dmat q) k (npoints - k) h;
  knn_emit takef k q k h out.

Fixpoint knn_queries (pushf : push_op) (takef : take_op) (k npoints : nat) (dmat : nat -> nat -> f32) (qs : list nat) (out : list pair_if) : res (list pair_if) :=
  match qs with
  | [] => Ok out
  | q :: t => do out' <- knn_query pushf takef k npoints dmat q out; knn_queries pushf takef k npoints dmat t out'
  end.

(** src/aux_compute_groundtruth.cpp:104-181 exact_knn.  [bs] is the batch size (512);
    [orders b] is the order in which the parallel loop over the queries of batch b runs.
    div_round_up (lines 38-41) is [n_blocks]. *)
Fixpoint knn_batches (pushf : push_op) (takef : take_op) (k npoints : nat) (dmat : nat -> nat -> f32) (orders : nat -> list nat) (b cnt : nat) (out : list pair_if)
  : res (list pair_if) :=
  match cnt with
  | O => Ok out
  | S cnt' => do out' <- knn_queries pushf takef k npoints dmat (orders b) out; knn_batches pushf takef k npoints dmat orders (S b) cnt' out'
  end.
Definition exact_knn (pushf : push_op) (takef : take_op) (bs k npoints nq : nat) (dmat : nat -> nat -> f32) (orders : nat -> list nat) (out : list pair_if)
  : res (list pair_if) :=
  knn_batches pushf takef k npoints dmat orders 0 (n_blocks nq bs) out.

(** src/aux_compute_groundtruth.cpp:308-314: the k results of query i of one part are
    appended to results[i], shifted by the part's first id. *)
Definition gather_one (k start : nat) (part : list pair_if) (i : nat) (r : list pair_if) : list pair_if :=
  r ++ map (fun x => (fst x + start, snd x)) (firstn k (skipn (i * k) part)).
Fixpoint gather (k start : nat) (part : list pair_if) (i : nat) (results : list (list pair_if)) : list (list pair_if) :=
  match results with
  | [] => []
  | r :: t => gather_one k start part i r :: gather k start part (S i) t
  end.

(** src/aux_compute_groundtruth.cpp:297-319: the parts from [p] on, [cnt] to go.
    [fresh k] is the uninitialised array of nqueries * k results. *)
Fixpoint gt_parts (pushf : push_op) (takef : take_op) (bs ps n nq : nat) (dmat : nat -> nat -> f32) (orders : nat -> nat -> list nat) (p cnt k : nat)
    (results : list (list pair_if)) : res (nat * list (list pair_if)) :=
  match cnt with
  | O => Ok (k, results)
  | S cnt' =>
      let start := p * ps in
      let npoints := min ps (n - start) in
      let k := if npoints <=? k then npoints else k in
      do part <- exact_knn pushf takef bs k npoints nq (fun q j => dmat q (start + j)) (orders p) (repeat (0, S754_nan) (nq * k));
      gt_parts pushf takef bs ps n nq dmat orders (S p) cnt' k (gather k start part 0 results)
  end.

(** src/aux_compute_groundtruth.cpp:324-327 *)
Fixpoint gt_copy (k i j cnt : nat) (r : list pair_if) (out : list pair_if) : res (list pair_if) :=
  match cnt with
  | O => Ok out
  | S cnt' => do x <- rd r j; do out' <- wr out (i * k + j) x; gt_copy k i (S j) cnt' r out'
  end.

(** src/aux_compute_groundtruth.cpp:321-328 *)
Fixpoint gt_merge (sortf : list pair_if -> list pair_if) (k i : nat) (results : list (list pair_if)) (out : list pair_if)
  : res (list pair_if) :=
  match results with
  | [] => Ok out
  | r :: t => do out' <- gt_copy k i 0 k (sortf r) out; gt_merge sortf k (S i) t out'
  end.

(** src/aux_compute_groundtruth.cpp:277-328 aux_main, on loaded data: the final k, and
    the output arrays, allocated for the k asked for.  [ps] is PARTSIZE. *)
Definition ground_truth (pushf : push_op) (takef : take_op) (sortf : list pair_if -> list pair_if) (bs ps n nq k : nat) (dmat : nat -> nat -> f32)
    (orders : nat -> nat -> list nat) : res (nat * list pair_if) :=
  do kr <- gt_parts pushf takef bs ps n nq dmat orders 0 (n_blocks n ps) k (repeat [] nq);
  do out <- gt_merge sortf (fst kr) 0 (snd kr) (repeat (0, S754_nan) (nq * k));
  Ok (fst kr, out).
