(** * Distances by matrix products: compute_l2sq and distsq_to_points of
    src/aux_compute_groundtruth.cpp, compute_vecs_l2sq and the distance matrix of
    src/math_utils.cpp.

    Arrays are flat lists, as in the code.  BLAS does not fix the order of additions: every
    entry of a product is computed in a [way] of its own. *)
From Coq Require Import ZArith List Arith Bool Floats.SpecFloat.
From Verif Require Import Base Float32 DistModel FusedModel PqModel ClosestModel GtModel IvfModel.
Import ListNotations.

(** How one entry alpha * sum + c comes about.  [Inside]: alpha goes into one factor of every
    product and c, if there is one, is one of the summands (number k).  [Outside]: the sum
    first, then alpha and c, with or without a fused operation.  (-2 and 1 are the alphas in
    use; scaling by them is exact, so it does not matter which factor is scaled.) *)
Inductive way : Type := Inside (t : fred) | Outside (t : fred) (fused : bool).

Definition gemm_entry (w : way) (k : nat) (alpha : f32) (fa fb : nat -> res f32) (c : option f32) : res f32 :=
  match w with
  | Inside t =>
      fred_eval (fun l => match c with
                          | Some v => if l =? k then Ok (f32_one, v) else do x <- fa l; do y <- fb l; Ok (fmul alpha x, y)
                          | None => do x <- fa l; do y <- fb l; Ok (fmul alpha x, y)
                          end) t
  | Outside t fused =>
      do s <- fred_eval (fun l => do x <- fa l; do y <- fb l; Ok (x, y)) t;
      Ok (match c with
          | Some v => if fused then ffma alpha s v else fadd (fmul alpha s) v
          | None => fmul alpha s
          end)
  end.

(** Storage of a matrix: CblasRowMajor / CblasColMajor, CblasTrans / CblasNoTrans; the place
    of row i, column j of op(X). *)
Inductive layout : Set := RowMajor | ColMajor.
Definition place (lay : layout) (trans : bool) (i j ld : nat) : nat :=
  match lay, trans with
  | ColMajor, false | RowMajor, true => i + j * ld
  | ColMajor, true | RowMajor, false => i * ld + j
  end.

(** cblas_sgemm: C := alpha * op(A) * op(B) + beta * C with C of m rows and n columns, [k]
    the inner dimension, beta 0 or 1 ([beta]); with 0, C is not read.  ldc is m (column
    major) or n (row major) in all calls, so every place of C is written; x is the place. *)
Definition sgemm (ws : nat -> way) (lay : layout) (ta tb : bool) (m n k : nat) (alpha : f32) (A : list f32) (lda : nat) (B : list f32) (ldb : nat)
    (beta : bool) (C : list f32) : res (list f32) :=
  collect (fun x =>
    let '(i, j) := match lay with ColMajor => (x mod m, x / m) | RowMajor => (x / n, x mod n) end in
    do c <- (if beta then do v <- rd C x; Ok (Some v) else Ok None);
    gemm_entry (ws x) k alpha (fun l => rd A (place lay ta i l lda)) (fun l => rd B (place lay tb l j ldb)) c) (seq 0 (m * n)).

Definition f32_m2 : f32 := f32_of_Z (-2).

(** src/aux_compute_groundtruth.cpp:67-74 compute_l2sq: one cblas_sdot per row. *)
Definition compute_l2sq (ts : nat -> fred) (matrix : list f32) (num dim : nat) : res (list f32) :=
  collect (fun d => fred_eval (fun l => do x <- rd matrix (d * dim + l); Ok (x, x)) (ts d)) (seq 0 num).

(** src/aux_compute_groundtruth.cpp:76-102 distsq_to_points: the matrix of the squared
    distances, column-major, one column per query. *)
Definition distsq_to_points (ws : nat -> nat -> way) (dim npoints : nat) (points points_l2sq : list f32) (nqueries : nat) (queries queries_l2sq : list f32) : res (list f32) :=
  let ones := repeat f32_one (if npoints <? nqueries then nqueries else npoints) in
  do d0 <- sgemm (ws 0) ColMajor true false npoints nqueries dim f32_m2 points dim queries dim false [];
  do d1 <- sgemm (ws 1) ColMajor false true npoints nqueries 1 f32_one points_l2sq npoints ones nqueries true d0;
  sgemm (ws 2) ColMajor false true npoints nqueries 1 f32_one ones npoints queries_l2sq nqueries true d1.

(** All choices of one run: of the norms of the points of a part and of the queries, and of
    the products of a part and a batch. *)
Record gt_ways : Type := mkWays { w_points : nat -> nat -> fred; w_queries : nat -> nat -> fred; w_dist : nat -> nat -> nat -> nat -> way }.

(** src/aux_compute_groundtruth.cpp:115-132 with 297-306: the entry of query q and point p
    (counted over all parts): the part starts at point [st], the batch at query [qb]. *)
Definition gt_entry (W : gt_ways) (bs ps dim n nq : nat) (base queries : list f32) (q p : nat) : res f32 :=
  let part := p / ps in
  let st := part * ps in
  let npoints := min ps (n - st) in
  let points := skipn (st * dim) base in
  do pn <- compute_l2sq (w_points W part) points npoints dim;
  do qn <- compute_l2sq (w_queries W part) queries nq dim;
  let b := q / bs in
  let qb := b * bs in
  let qe := if nq <? (b + 1) * bs then nq else (b + 1) * bs in
  do m <- distsq_to_points (w_dist W part b) dim npoints points pn (qe - qb) (skipn (qb * dim) queries) (skipn qb qn);
  rd m (p - st + (q - qb) * npoints).

(** The ground truth of [n] points and [nq] queries (GtModel.ground_truth) on these
    distances.  The first line makes a run with an undefined entry undefined. *)
Definition ground_truth_on (W : gt_ways) (pushf : push_op) (takef : take_op) (sortf : list pair_if -> list pair_if) (bs ps dim n nq k : nat) (base queries : list f32)
    (orders : nat -> nat -> list nat) : res (nat * list pair_if) :=
  do _ <- collect (fun qp => gt_entry W bs ps dim n nq base queries (fst qp) (snd qp)) (list_prod (seq 0 nq) (seq 0 n));
  ground_truth pushf takef sortf bs ps n nq k
    (fun q p => if (q <? nq) && (p <? n) then match gt_entry W bs ps dim n nq base queries q p with Ok d => d | _ => S754_nan end else f32_zero) orders.

(** src/math_utils.cpp:22-31 compute_vecs_l2sq; [nrm2] is cblas_snrm2. *)
Definition compute_vecs_l2sq (nrm2 : list f32 -> f32) (data : list f32) (num dim : nat) : res (list f32) :=
  collect (fun i => do row <- collect (fun l => rd data (i * dim + l)) (seq 0 dim); Ok (fmul (nrm2 row) (nrm2 row))) (seq 0 num).

(** src/math_utils.cpp:70-93: the distance matrix of a block, row-major, one row per point. *)
Definition block_distances (ws : nat -> nat -> way) (data : list f32) (num dim : nat) (centers : list f32) (nc : nat) (docs_l2sq centers_l2sq : list f32) : res (list f32) :=
  let ones_a := repeat f32_one nc in
  let ones_b := repeat f32_one num in
  do d0 <- sgemm (ws 0) RowMajor false true num nc 1 f32_one docs_l2sq 1 ones_a 1 false [];
  do d1 <- sgemm (ws 1) RowMajor false true num nc 1 f32_one ones_b 1 centers_l2sq 1 true d0;
  sgemm (ws 2) RowMajor false true num nc dim f32_m2 data dim centers dim true d1.

(** src/math_utils.cpp:147-176: the entry of point j and centre c; the points go by blocks of
    min n mbs (MAX_BLOCK_SIZE). *)
Definition closest_entry (nrm2 : list f32 -> f32) (ws : nat -> nat -> nat -> way) (mbs dim n nc : nat) (data centers : list f32) (j c : nat) : res f32 :=
  let bs := min n mbs in
  let b := j / bs in
  do pn <- compute_vecs_l2sq nrm2 data n dim;
  do cn <- compute_vecs_l2sq nrm2 centers nc dim;
  let num := min bs (n - b * bs) in
  do m <- block_distances (ws b) (skipn (b * bs * dim) data) num dim centers nc (skipn (b * bs) pn) cn;
  rd m ((j - b * bs) * nc + c).

(** The whole table as the function the models of IVF, k-means and PQ take. *)
Definition closest_matrix (nrm2 : list f32 -> f32) (ws : nat -> nat -> nat -> way) (mbs dim n nc : nat) (data centers : list f32) : res (nat -> nat -> f32) :=
  do _ <- collect (fun jc => closest_entry nrm2 ws mbs dim n nc data centers (fst jc) (snd jc)) (list_prod (seq 0 n) (seq 0 nc));
  Ok (fun j c => if (j <? n) && (c <? nc) then match closest_entry nrm2 ws mbs dim n nc data centers j c with Ok d => d | _ => S754_nan end else f32_zero).

(** src/ivf.cpp:86-122 build (IvfModel.ivf_build) on these distances. *)
Definition ivf_build_on (nrm2 : list f32 -> f32) (ws : nat -> nat -> nat -> way) (popf : list (nat * f32) -> list (nat * f32)) (mbs dim n nc : nat) (data centers : list f32)
    (orders : nat -> list (nat * nat)) (old : list (list nat)) : res (list (list nat)) :=
  do dm <- closest_matrix nrm2 ws mbs dim n nc data centers;
  ivf_build popf mbs dm n nc orders old.
