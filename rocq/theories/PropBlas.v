(** * Theorems: distances by matrix products (C99).

    The ground truth tool and the assignment to centres do not subtract coordinates; they
    compute |p|^2 + |q|^2 - 2 p.q with BLAS.  [W] and [ws] are any choices of the library of
    the orders of additions and of fused operations, entry by entry; arrays are flat. *)
From Coq Require Import ZArith Reals List Arith Lia Bool Floats.SpecFloat Sorting.Permutation.
From Verif Require Import Base Float32 DistSpec RealSpec ClosestSpec PopInst HeapSpec HeapInst GtModel GtSpec BlasModel BlasSpec BlasProofs7 BlasProofs9 BlasCases.
Import ListNotations.

(** C99.  Ground truth of float data: the listed distances are within the error, and what is
    left out is not nearer by more than the errors. *)
Theorem C99_truth : forall W pushf takef sortf bs ps dim k rows qrows orders, heap_ok pushf takef -> sorts_pairs sortf -> 1 <= bs -> 1 <= ps -> rows <> [] -> 1 <= k ->
  (forall p, batch_orders (length qrows) bs (orders p)) -> (Z.of_nat dim <= 2 ^ 20)%Z -> ways_ok dim W ->
  (forall r, In r rows \/ In r qrows -> length r = dim /\ (forall x, In x r -> finite x /\ valid_binary 24 128 x = true) /\ (sum_sq r <= powerRZ 2 100)%R) ->
  exists out, ground_truth_on W pushf takef sortf bs ps dim (length rows) (length qrows) k (concat rows) (concat qrows) orders = Ok (min k (last_part (length rows) ps), out) /\
    length out = length qrows * k /\
    forall i, i < length qrows -> nearest_within (length rows) (min k (last_part (length rows) ps)) (fun p => exact_l2 (nth p rows []) (nth i qrows []))
      (fun p => (INR dim + 8) * powerRZ 2 (-22) * (sum_sq (nth p rows []) + sum_sq (nth i qrows [])) + (INR dim + 4) * powerRZ 2 (-147))%R (row_of (min k (last_part (length rows) ps)) i out).
Proof. exact truth_float. Qed.
Print Assumptions C99_truth.

(** Of integers with squared norms and distances up to 2^24: exactly the k nearest, with the
    exact distances. *)
Theorem C99_truth_integers : forall W pushf takef sortf bs ps dim k rows qrows zrows zqrows orders, heap_ok pushf takef -> sorts_pairs sortf -> 1 <= bs -> 1 <= ps -> rows <> [] -> 1 <= k ->
  (forall p, batch_orders (length qrows) bs (orders p)) -> ways_ok dim W ->
  (forall r, In r rows \/ In r qrows -> length r = dim /\ (forall x, In x r -> finite x /\ valid_binary 24 128 x = true)) -> Forall2 holds_ints rows zrows -> Forall2 holds_ints qrows zqrows ->
  (forall z, In z zrows \/ In z zqrows -> int_sq z <= 2 ^ 24)%Z -> (forall z y, In z zrows -> In y zqrows -> sq_dist z y <= 2 ^ 24)%Z ->
  exists out, ground_truth_on W pushf takef sortf bs ps dim (length rows) (length qrows) k (concat rows) (concat qrows) orders = Ok (min k (last_part (length rows) ps), out) /\
    length out = length qrows * k /\
    forall i, i < length qrows -> nearest_within (length rows) (min k (last_part (length rows) ps)) (fun p => IZR (sq_dist (nth p zrows []) (nth i zqrows []))) (fun _ => 0%R) (row_of (min k (last_part (length rows) ps)) i out).
Proof. exact truth_int. Qed.
Print Assumptions C99_truth_integers.

(** So for bytes of up to 258 dimensions. *)
Theorem C99_truth_bytes : forall W pushf takef sortf bs ps dim k zrows zqrows orders, heap_ok pushf takef -> sorts_pairs sortf -> 1 <= bs -> 1 <= ps -> zrows <> [] -> 1 <= k ->
  (forall p, batch_orders (length zqrows) bs (orders p)) -> ways_ok dim W -> dim <= 258 -> (forall z, In z zrows \/ In z zqrows -> length z = dim) ->
  ((forall z, In z zrows \/ In z zqrows -> uint8s z) \/ (forall z, In z zrows \/ In z zqrows -> int8s z)) ->
  exists out, ground_truth_on W pushf takef sortf bs ps dim (length zrows) (length zqrows) k (concat (map (map f32_of_Z) zrows)) (concat (map (map f32_of_Z) zqrows)) orders = Ok (min k (last_part (length zrows) ps), out) /\
    length out = length zqrows * k /\
    forall i, i < length zqrows -> nearest_within (length zrows) (min k (last_part (length zrows) ps)) (fun p => IZR (sq_dist (nth p zrows []) (nth i zqrows []))) (fun _ => 0%R) (row_of (min k (last_part (length zrows) ps)) i out).
Proof. exact truth_bytes. Qed.
Print Assumptions C99_truth_bytes.

(** Five points in parts of three, three queries in batches of two. *)
Example C99_bytes_case : ways_ok 2 case_W /\ (forall p : nat, batch_orders 3 2 case_orders) /\ (forall z, In z case_rows \/ In z case_queries -> length z = 2 /\ uint8s z) /\ heap_ok heap_push heap_take /\ sorts_pairs sort_pairs.
Proof. exact case_hyps. Qed.
Example C99_bytes_case_runs : ground_truth_on case_W heap_push heap_take sort_pairs 2 3 2 5 3 2 (concat (map (map f32_of_Z) case_rows)) (concat (map (map f32_of_Z) case_queries)) (fun _ => case_orders) =
  Ok (2, [(3, f32_of_Z 4); (4, f32_of_Z 58); (3, f32_of_Z 60169); (4, f32_of_Z 61513); (0, f32_of_Z 25); (3, f32_of_Z 56744)]).
Proof. exact case_runs. Qed.

(** Beyond that it is not exact: of the points 5795 and 5794 the second is reported as the
    nearest neighbour of the query 5795, at the distance -4. *)
Theorem C99_truth_exact_refuted : ways_ok 1 far_W /\
  ground_truth_on far_W heap_push heap_take sort_pairs 512 1000 1 2 1 1 [f32_of_Z 5795; f32_of_Z 5794] [f32_of_Z 5795] (fun _ b => seq b (1 - b)) = Ok (1, [(1, f32_of_Z (-4))]).
Proof. exact far_runs. Qed.
Print Assumptions C99_truth_exact_refuted.

(** C99.  The table of distances to centres; [nrm2] is any norm function near the norm. *)
Theorem C99_centre_table : forall nrm2 ws mbs dim rows crows, 1 <= mbs -> (Z.of_nat dim <= 2 ^ 20)%Z -> block_ways_ok dim ws ->
  (forall r, In r rows \/ In r crows -> length r = dim /\ (forall x, In x r -> finite x /\ valid_binary 24 128 x = true) /\ (sum_sq r <= powerRZ 2 100)%R /\ norm_near r (nrm2 r)) ->
  forall j c, j < length rows -> c < length crows ->
  exists v, closest_entry nrm2 ws mbs dim (length rows) (length crows) (concat rows) (concat crows) j c = Ok v /\ (finite v /\ valid_binary 24 128 v = true) /\
    (Rabs (real v - exact_l2 (nth j rows []) (nth c crows [])) <= (INR dim + 4) * powerRZ 2 (-20) * (sum_sq (nth j rows []) + sum_sq (nth c crows [])) + (INR dim + 4) * powerRZ 2 (-147))%R.
Proof. exact closest_entry_ok. Qed.
Print Assumptions C99_centre_table.

(** An IVF index built with it: no centre is nearer to a point than its own by more than the
    errors. *)
Theorem C99_ivf : forall nrm2 ws popf mbs dim rows crows orders, pops popf -> 1 <= mbs -> rows <> [] -> crows <> [] -> block_orders (length rows) 1 (min (length rows) mbs) orders ->
  (Z.of_nat dim <= 2 ^ 20)%Z -> block_ways_ok dim ws ->
  (forall r, In r rows \/ In r crows -> length r = dim /\ (forall x, In x r -> finite x /\ valid_binary 24 128 x = true) /\ (sum_sq r <= powerRZ 2 100)%R /\ norm_near r (nrm2 r)) ->
  exists inv, ivf_build_on nrm2 ws popf mbs dim (length rows) (length crows) (concat rows) (concat crows) orders [] = Ok inv /\ length inv = length crows /\ Permutation (concat inv) (seq 0 (length rows)) /\
    forall c l j c', nth_error inv c = Some l -> In j l -> c' < length crows ->
      (exact_l2 (nth j rows []) (nth c crows []) <= exact_l2 (nth j rows []) (nth c' crows []) +
         (INR dim + 4) * powerRZ 2 (-20) * (2 * sum_sq (nth j rows []) + sum_sq (nth c crows []) + sum_sq (nth c' crows [])) + (INR dim + 4) * powerRZ 2 (-146))%R.
Proof. exact ivf_on_ok. Qed.
Print Assumptions C99_ivf.

(** Three points in blocks of two, two centres. *)
Example C99_ivf_case : block_ways_ok 2 case_ws /\ block_orders 3 1 (min 3 2) (fun b => rev (list_prod (seq (b * 2) (min 2 (3 - b * 2))) [0])) /\
  forall r, In r cpoints \/ In r ccentres -> length r = 2 /\ (forall x, In x r -> finite x /\ valid_binary 24 128 x = true) /\ (sum_sq r <= powerRZ 2 100)%R /\ norm_near r (plain_nrm2 r).
Proof. exact centre_hyps. Qed.
Example C99_ivf_case_runs : ivf_build_on plain_nrm2 case_ws pop_all 2 2 3 2 (concat cpoints) (concat ccentres) (fun b => rev (list_prod (seq (b * 2) (min 2 (3 - b * 2))) [0])) [] = Ok [[1; 2]; [0]].
Proof. exact centre_runs. Qed.

(** Distances to centres are not exact even for the smallest integers, as the norm is a
    rounded root, squared: (1, 1) is at -2^-22 of the centre (1, 1). *)
Theorem C99_centre_exact_refuted : block_ways_ok 2 case_ws /\
  exists d, closest_entry plain_nrm2 case_ws 2 2 1 1 (ints [1; 1]%Z) (ints [1; 1]%Z) 0 0 = Ok d /\ real d = (- powerRZ 2 (-22))%R /\ exact_l2 (ints [1; 1]%Z) (ints [1; 1]%Z) = 0%R.
Proof. exact (conj case_ws_ok unit_runs). Qed.
Print Assumptions C99_centre_exact_refuted.
