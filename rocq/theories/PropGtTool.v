(** * Theorems: the ground truth tool, from files to file (C100).

    From a file of base vectors and a file of queries to the bytes of the truth file, and from
    those to what the loader of truth files returns.  [W] is any choice of the matrix library
    of orders of additions and fused operations, [pushf], [takef] any heap, [sortf] any sort,
    [orders] any schedule of the parallel loops; [gb1] to [gq2] and [g] are uninitialised
    bytes; [ps] is the number of vectors of a part, [bs] that of queries in a batch. *)
From Coq Require Import NArith ZArith Reals List Arith Lia Bool Floats.SpecFloat Sorting.Permutation.
From Verif Require Import Base Bytes Float32 DistSpec RealSpec NormModel NormSpec ClosestModel HeapSpec HeapInst PopInst GtModel GtSpec TruthModel BlasModel BlasSpec BlasCases GtToolModel GtToolSpec GtToolProofs4 GtToolCases.
Import ListNotations.
Local Open Scope R_scope.

(** C100.  Squared distances: the k nearest vectors of every query, nearest first, up to the
    rounding of the distances. *)
Theorem C100_l2 : forall W pushf takef sortf bs ps kt gb1 gb2 gq1 gq2 dim k rows qrows orders, heap_ok pushf takef -> sorts_pairs sortf -> length gb1 = 4%nat -> length gb2 = 4%nat -> length gq1 = 4%nat -> length gq2 = 4%nat -> (1 <= bs)%nat -> (1 <= ps)%nat -> (1 <= k)%nat -> (k <= last_part (length rows) ps)%nat -> (forall p, batch_orders (length qrows) bs (orders p)) ->
  tool_input kt dim ps rows qrows -> ways_ok dim W -> (Z.of_nat dim <= 2 ^ 20)%Z -> (forall r, In r rows \/ In r qrows -> elem_sq kt r <= powerRZ 2 100) ->
  exists b ids dists, gt_tool W false pushf takef sortf bs ps kt gb1 gb2 gq1 gq2 (vector_file kt dim rows) (vector_file kt dim qrows) k orders = Ok b /\
    (forall g, load_truthset g (Some b) = Ok (N.of_nat (length qrows), N.of_nat k, ids, Some dists)) /\
    forall i, (i < length qrows)%nat -> nearest_within (length rows) k (fun p => elem_l2 kt (nth p rows []) (nth i qrows []))
      (fun p => (INR dim + 8) * powerRZ 2 (-22) * (elem_sq kt (nth p rows []) + elem_sq kt (nth i qrows [])) + (INR dim + 4) * powerRZ 2 (-147)) (truth_row k i ids dists).
Proof. exact tool_l2. Qed.
Print Assumptions C100_l2.

(** C100.  Bytes of up to 258 dimensions: exactly the k nearest, with the exact distances. *)
Theorem C100_l2_bytes : forall W pushf takef sortf bs ps kt gb1 gb2 gq1 gq2 dim k rows qrows orders, heap_ok pushf takef -> sorts_pairs sortf -> length gb1 = 4%nat -> length gb2 = 4%nat -> length gq1 = 4%nat -> length gq2 = 4%nat -> (1 <= bs)%nat -> (1 <= ps)%nat -> (1 <= k)%nat -> (k <= last_part (length rows) ps)%nat -> (forall p, batch_orders (length qrows) bs (orders p)) ->
  tool_input kt dim ps rows qrows -> ways_ok dim W -> kt <> KFloat -> (dim <= 258)%nat ->
  exists b ids dists, gt_tool W false pushf takef sortf bs ps kt gb1 gb2 gq1 gq2 (vector_file kt dim rows) (vector_file kt dim qrows) k orders = Ok b /\
    (forall g, load_truthset g (Some b) = Ok (N.of_nat (length qrows), N.of_nat k, ids, Some dists)) /\
    forall i, (i < length qrows)%nat -> nearest_within (length rows) k (fun p => elem_l2 kt (nth p rows []) (nth i qrows [])) (fun _ => 0) (truth_row k i ids dists).
Proof. exact tool_l2_bytes. Qed.
Print Assumptions C100_l2_bytes.

Example C100_bytes_case : tool_input KUint8 2 3 tool_rows tool_queries /\ tool_input KInt8 2 3 tool_rows tool_queries /\ ways_ok 2 case_W.
Proof. exact tool_hyps. Qed.
Example C100_orders_case : forall nq p, batch_orders nq 2 (tool_orders nq p).
Proof. exact tool_orders_ok. Qed.
Example C100_l2_case_runs : loaded (run false KUint8 2 2 2 tool_rows tool_queries) = Ok (3, 2, [3; 4; 3; 1; 0; 3], Some (fbits [4; 45; 60169; 61513; 25; 56744]%Z))%N.
Proof. exact tool_l2_runs. Qed.

(** C100.  Inner products: the k vectors of the largest inner products, largest first, and the
    products as written are the products, not their opposites. *)
Theorem C100_mips : forall W pushf takef sortf bs ps kt gb1 gb2 gq1 gq2 dim k rows qrows orders, heap_ok pushf takef -> sorts_pairs sortf -> length gb1 = 4%nat -> length gb2 = 4%nat -> length gq1 = 4%nat -> length gq2 = 4%nat -> (1 <= bs)%nat -> (1 <= ps)%nat -> (1 <= k)%nat -> (k <= last_part (length rows) ps)%nat -> (forall p, batch_orders (length qrows) bs (orders p)) ->
  tool_input kt dim ps rows qrows -> ways_ok dim W -> (Z.of_nat dim <= 2 ^ 20)%Z -> (forall r, In r rows \/ In r qrows -> elem_sq kt r <= powerRZ 2 100) ->
  exists b ids dists, gt_tool W true pushf takef sortf bs ps kt gb1 gb2 gq1 gq2 (vector_file kt dim rows) (vector_file kt dim qrows) k orders = Ok b /\
    (forall g, load_truthset g (Some b) = Ok (N.of_nat (length qrows), N.of_nat k, ids, Some dists)) /\
    forall i, (i < length qrows)%nat -> largest_within (length rows) k (fun p => elem_dot kt (nth p rows []) (nth i qrows []))
      (fun p => (INR dim + 4) * powerRZ 2 (-24) * (elem_sq kt (nth p rows []) + elem_sq kt (nth i qrows [])) + (INR dim + 4) * powerRZ 2 (-148)) (truth_row k i ids dists).
Proof. exact tool_mips. Qed.
Print Assumptions C100_mips.

(** C100.  Exactly so for bytes of up to 258 dimensions. *)
Theorem C100_mips_bytes : forall W pushf takef sortf bs ps kt gb1 gb2 gq1 gq2 dim k rows qrows orders, heap_ok pushf takef -> sorts_pairs sortf -> length gb1 = 4%nat -> length gb2 = 4%nat -> length gq1 = 4%nat -> length gq2 = 4%nat -> (1 <= bs)%nat -> (1 <= ps)%nat -> (1 <= k)%nat -> (k <= last_part (length rows) ps)%nat -> (forall p, batch_orders (length qrows) bs (orders p)) ->
  tool_input kt dim ps rows qrows -> ways_ok dim W -> kt <> KFloat -> (dim <= 258)%nat ->
  exists b ids dists, gt_tool W true pushf takef sortf bs ps kt gb1 gb2 gq1 gq2 (vector_file kt dim rows) (vector_file kt dim qrows) k orders = Ok b /\
    (forall g, load_truthset g (Some b) = Ok (N.of_nat (length qrows), N.of_nat k, ids, Some dists)) /\
    forall i, (i < length qrows)%nat -> largest_within (length rows) k (fun p => elem_dot kt (nth p rows []) (nth i qrows [])) (fun _ => 0) (truth_row k i ids dists).
Proof. exact tool_mips_bytes. Qed.
Print Assumptions C100_mips_bytes.

Example C100_mips_case_runs : loaded (run true KUint8 2 2 2 tool_rows tool_queries) = Ok (3, 2, [2; 0; 2; 3; 2; 0], Some (fbits [5100; 2550; 65025; 2550; 63750; 63750]%Z))%N /\
  loaded (run true KInt8 2 2 2 tool_rows tool_queries) = Ok (3, 2, [3; 4; 2; 0; 2; 0], Some (fbits [220; 110; 1; 0; 6; 6]%Z))%N.
Proof. exact tool_mips_runs. Qed.
Example C100_floats_case : tool_input KFloat 2 3 tool_floats tool_fq /\ forall r, In r tool_floats \/ In r tool_fq -> (elem_sq KFloat r <= powerRZ 2 100)%R.
Proof. exact floats_hyps. Qed.
Example C100_floats_case_runs : loaded (run false KFloat 2 2 1 tool_floats tool_fq) = Ok (1, 1, [3], Some (fbits [25]%Z))%N /\ loaded (run true KFloat 2 2 1 tool_floats tool_fq) = Ok (1, 1, [1], Some (fbits [1000007]%Z))%N.
Proof. exact tool_float_runs. Qed.

(** Not every k up to the number of vectors works: the last part must have k vectors.  Three
    neighbours among five vectors, two of them in the last part: distances outside the
    query's column are read. *)
Theorem C100_any_k_refuted : run false KUint8 2 2 3 tool_rows tool_queries = UB.
Proof. exact tool_many. Qed.
Print Assumptions C100_any_k_refuted.

(** Queries of another dimension are not noticed: queries (5,5) and (9,9) against the vectors
    9 and 5 of dimension one.  The second coordinate of the first query is taken for the
    second query: a truth file says that the vector 5 is at distance 0 of both. *)
Theorem C100_dimensions_checked_refuted : gt_tool one_W false heap_push heap_take sort_pairs 2 3 KUint8 no no no no (vector_file KUint8 1 [[9]; [5]]%N) (vector_file KUint8 2 [[5; 5]; [9; 9]]%N) 1 (tool_orders 2) = Ok (map N.of_nat [2; 0; 0; 0; 1; 0; 0; 0; 1; 0; 0; 0; 1; 0; 0; 0; 0; 0; 0; 0; 0; 0; 0; 0]%nat).
Proof. exact tool_dims. Qed.
Print Assumptions C100_dimensions_checked_refuted.
