(** * Theorems: exact ground truth (C52, C53). *)
From Coq Require Import List Arith Floats.SpecFloat Sorting.Permutation Lia.
From Verif Require Import Base Float32 TopKSpec HeapSpec HeapInst GtModel GtSpec GtProofs GtProofs2 GtProofs3.
Import ListNotations.

(** C52.  For every priority queue and every order of the parallel loops, the row of each
    query holds the k nearest points, nearest first. *)
Theorem C52_exact_knn : forall pushf takef bs k npoints nq dmat orders out, heap_ok pushf takef -> (forall q p, is_nan (dmat q p) = false) ->
  1 <= bs -> 1 <= k -> k <= npoints -> batch_orders nq bs orders -> length out = nq * k ->
  exists out', exact_knn pushf takef bs k npoints nq dmat orders out = Ok out' /\ length out' = nq * k /\
    (forall q, q < nq -> is_top_k k (score (dmat q) (seq 0 npoints)) (row_of k q out') /\ length (row_of k q out') = k).
Proof. exact exact_knn_ok. Qed.
Print Assumptions C52_exact_knn.

(** Distances of 3 queries to 5 points: (3 * q + 4 * p) mod 7, with ties. *)
Definition ex_dmat (q p : nat) : f32 := f32_of_Z (BinInt.Z.of_nat ((3 * q + 4 * p) mod 7)).
Definition ex_orders (b : nat) : list nat := rev (seq (b * 2) (min 2 (3 - b * 2))).
Example C52_exact_knn_applies : batch_orders 3 2 ex_orders /\
  (match exact_knn heap_push heap_take 2 2 5 3 ex_dmat ex_orders (repeat (0, S754_nan) 6) with
   | Ok out => map fst out = [0; 2; 1; 3; 2; 4] | _ => False end).
Proof. split; [|vm_compute; reflexivity]. intros b. unfold ex_orders. apply Permutation_sym, Permutation_rev. Qed.

(** C52.  Over any number of parts the merged rows hold the nearest of all points. *)
Theorem C52_merged : forall pushf takef sortf bs ps n nq k dmat orders, heap_ok pushf takef -> sorts_pairs sortf ->
  (forall q p, is_nan (dmat q p) = false) -> 1 <= bs -> 1 <= ps -> 1 <= n -> 1 <= k -> (forall p, batch_orders nq bs (orders p)) ->
  exists out, ground_truth pushf takef sortf bs ps n nq k dmat orders = Ok (min k (last_part n ps), out) /\ length out = nq * k /\
    forall i, i < nq -> is_top_k (min k (last_part n ps)) (score (dmat i) (seq 0 n)) (row_of (min k (last_part n ps)) i out).
Proof. exact ground_truth_ok. Qed.
Print Assumptions C52_merged.

Example C52_merged_applies :
  match ground_truth heap_push heap_take sort_pairs 2 3 5 3 2 ex_dmat (fun _ => ex_orders) with
  | Ok (k, out) => k = 2 /\ map fst out = [0; 2; 1; 3; 2; 4] | _ => False end.
Proof. vm_compute. split; reflexivity. Qed.

(** C52.  k = 0 reads the top of an empty heap. *)
Theorem C52_k_zero_undefined : forall pushf takef bs npoints nq dmat orders out, heap_ok pushf takef -> 1 <= bs -> 1 <= npoints -> 1 <= nq -> batch_orders nq bs orders ->
  exact_knn pushf takef bs 0 npoints nq dmat orders out = UB.
Proof. exact exact_knn_zero. Qed.
Print Assumptions C52_k_zero_undefined.

(** C53.  The k of the output is the smaller of the k asked for and the size of the last
    part, the only one that can be smaller than the part size.  (That the rows still hold
    the nearest of all points is C52_merged.) *)
Theorem C53_k_shrinks : forall pushf takef sortf bs ps n nq k dmat orders k' out, heap_ok pushf takef -> sorts_pairs sortf ->
  (forall q p, is_nan (dmat q p) = false) -> 1 <= bs -> 1 <= ps -> 1 <= n -> 1 <= k -> (forall p, batch_orders nq bs (orders p)) ->
  ground_truth pushf takef sortf bs ps n nq k dmat orders = Ok (k', out) -> k' = min k (last_part n ps).
Proof. exact ground_truth_k. Qed.
Print Assumptions C53_k_shrinks.

(** Seven points in parts of three: two neighbours of each query are asked for, one is
    written. *)
Theorem C53_k_kept_refuted : exists ps n nq k dmat orders, k <= n /\ (forall p, batch_orders nq 2 (orders p)) /\
  exists out, ground_truth heap_push heap_take sort_pairs 2 ps n nq k dmat orders = Ok (1, out) /\ k = 2.
Proof.
  exists 3, 7, 3, 2, ex_dmat, (fun _ => ex_orders). split; [lia|]. split.
  - intros p b. unfold ex_orders. apply Permutation_sym, Permutation_rev.
  - eexists. split; [vm_compute; reflexivity|reflexivity].
Qed.
Print Assumptions C53_k_kept_refuted.

(** C53.  Without points, and with k = 0, the computation is undefined. *)
Theorem C53_no_points_undefined : forall pushf takef sortf bs ps nq k dmat orders, sorts_pairs sortf -> 1 <= ps -> 1 <= nq -> 1 <= k ->
  ground_truth pushf takef sortf bs ps 0 nq k dmat orders = UB.
Proof. exact ground_truth_no_points. Qed.
Print Assumptions C53_no_points_undefined.

Theorem C53_k_zero_undefined : forall pushf takef sortf bs ps n nq dmat orders, heap_ok pushf takef -> 1 <= bs -> 1 <= ps -> 1 <= n -> 1 <= nq ->
  (forall p, batch_orders nq bs (orders p)) -> ground_truth pushf takef sortf bs ps n nq 0 dmat orders = UB.
Proof. exact ground_truth_k_zero. Qed.
Print Assumptions C53_k_zero_undefined.
