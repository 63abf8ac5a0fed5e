(** * Theorems: what k-means minimises (C114).

    [cost] is the exact sum of the squared distances of the points to the centres given to them, [objective] to
    their closest centres (KmeansSpec.v).  [ws] are the ways in which the matrix products add, [nrm2] the norms
    that BLAS computes, [popf] any priority queue, [orders] the orders of the parallel loops. *)
From Coq Require Import ZArith Reals List Arith Bool Floats.SpecFloat.
From Verif Require Import Base Float32 DistSpec RealSpec BlasModel BlasSpec BlasCases ClosestModel ClosestSpec IvfProofs PopInst PqModel PqSpec RandModel LloydModel LloydSpec KmeansModel KmeansSpec KmeansProofs4 KmeansProofs5 KmeansProofs6 KmeansCases.
Import ListNotations.
Local Open Scope R_scope.

(** C114.  One iteration: the assignment costs at most what the closest centres cost, up to the errors of the
    products; no centres at all are better for this assignment than the new ones, up to the rounding of the
    means; the new centres are finite and where the points are. *)
Theorem C114_iteration : forall nrm2 ws popf mbs csz rdist dim (data : list (list f32)) orders (centers : list (list f32)) assign0 B C, pops popf -> (1 <= mbs)%nat -> (1 <= csz)%nat -> data <> [] -> centers <> [] ->
  block_orders (length data) 1 (min (length data) mbs) orders -> (Z.of_nat dim <= 2 ^ 20)%Z -> (Z.of_nat (length data) <= 2 ^ 28)%Z -> block_ways_ok dim ws -> length assign0 = length data ->
  vectors dim B data -> vectors dim C centers -> 0 <= B <= powerRZ 2 100 -> 0 <= C <= powerRZ 2 100 -> (forall r, In r data \/ In r centers -> norm_near r (nrm2 r)) ->
  exists st, lloyd_iter_on nrm2 ws popf mbs csz rdist (length data) dim (length centers) data orders centers assign0 = Ok st /\
    length (ll_assign st) = length data /\ (forall c, In c (ll_assign st) -> (c < length centers)%nat) /\ length (ll_centers st) = length centers /\
    vectors dim (3 * B + INR dim * powerRZ 2 (-297)) (ll_centers st) /\
    cost data centers (ll_assign st) <= objective data centers + INR (length data) * ((INR dim + 4) * powerRZ 2 (-19) * (B + C) + (INR dim + 4) * powerRZ 2 (-146)) /\
    (forall D, length D = length centers -> (forall d, In d D -> length d = dim) ->
       cost data (ll_centers st) (ll_assign st) <= cost data D (ll_assign st) + powerRZ 2 (-43) * (INR (length data) * B) + INR (length data) * (INR dim * powerRZ 2 (-297))) /\
    objective data (ll_centers st) <= cost data (ll_centers st) (ll_assign st).
Proof. exact iteration_ok. Qed.
Print Assumptions C114_iteration.

(** C114.  All iterations: the objective at the end is at most that at the start plus n (dim + 4) 2^-16 B for
    each iteration, where B bounds the squared norms of the points. *)
Theorem C114_run : forall nrm2 ws popf mbs csz rdist dim (data : list (list f32)) orders (centers : list (list f32)) assign docs B max_reps, pops popf -> (1 <= mbs)%nat -> (1 <= csz)%nat -> data <> [] -> centers <> [] ->
  (forall i, block_orders (length data) 1 (min (length data) mbs) (orders i)) -> (Z.of_nat dim <= 2 ^ 20)%Z -> (Z.of_nat (length data) <= 2 ^ 28)%Z -> (forall i, block_ways_ok dim (ws i)) ->
  vectors dim B data -> vectors dim (4 * B) centers -> 1 <= B <= powerRZ 2 98 -> (forall r, vectors dim (4 * B) [r] -> norm_near r (nrm2 r)) -> length assign = length data ->
  exists st, run_lloyds_on nrm2 ws popf mbs csz rdist (length data) dim (length centers) max_reps data orders centers assign docs = Ok st /\
    length (ll_centers st) = length centers /\ vectors dim (4 * B) (ll_centers st) /\
    objective data (ll_centers st) <= objective data centers + INR max_reps * (INR (length data) * ((INR dim + 4) * powerRZ 2 (-16) * B)) /\
    ((1 <= max_reps)%nat -> length (ll_assign st) = length data /\ (forall c, In c (ll_assign st) -> (c < length centers)%nat) /\
      cost data (ll_centers st) (ll_assign st) <= objective data centers + INR max_reps * (INR (length data) * ((INR dim + 4) * powerRZ 2 (-16) * B))).
Proof. exact kmeans_run. Qed.
Print Assumptions C114_run.

Example C114_run_case : (pops pop_all /\ (forall i : nat, block_orders (length km_data) 1 (min (length km_data) 2) (km_orders 6)) /\ block_ways_ok 2 case_ws /\ vectors 2 1000 km_data /\ vectors 2 (4 * 1000) km_start /\ 1 <= 1000 <= powerRZ 2 98 /\ adds_squares 2 calc_distance /\
  (forall r, vectors 2 (4 * 1000) [r] -> norm_near r (exact_nrm2 r))) /\
  exists st, run_lloyds_on exact_nrm2 (fun _ => case_ws) pop_all 2 3 calc_distance (length km_data) 2 2 5 km_data (fun _ => km_orders 6) km_start [0; 0; 0; 0; 0; 0]%nat [] = Ok st /\
    ll_assign st = [0; 0; 1; 1; 1; 0]%nat /\ ll_centers st = map ints [[1; 1]; [11; 1]]%Z /\ ll_res st = f32_of_Z 16.
Proof. split; [exact km_hyps | exact km_runs]. Qed.

(** C114.  The residual that an iteration returns is the cost of what it leaves behind, up to rounding. *)
Theorem C114_residual : forall nrm2 ws popf mbs csz rdist dim (data : list (list f32)) orders (centers : list (list f32)) assign0 B C st, pops popf -> (1 <= mbs)%nat -> (1 <= csz)%nat -> data <> [] -> centers <> [] ->
  block_orders (length data) 1 (min (length data) mbs) orders -> (Z.of_nat dim <= 2 ^ 20)%Z -> (Z.of_nat (length data) <= 2 ^ 28)%Z -> block_ways_ok dim ws -> length assign0 = length data ->
  vectors dim B data -> vectors dim C centers -> 0 <= B <= powerRZ 2 100 -> 0 <= C <= powerRZ 2 100 -> (forall r, In r data \/ In r centers -> norm_near r (nrm2 r)) ->
  adds_squares dim rdist -> let k := (csz + (length data + csz - 1) / csz)%nat in (Z.of_nat k <= 2 ^ 22)%Z ->
  lloyd_iter_on nrm2 ws popf mbs csz rdist (length data) dim (length centers) data orders centers assign0 = Ok st -> finite (ll_res st) ->
  Rabs (real (ll_res st) - cost data (ll_centers st) (ll_assign st)) <= (INR dim + 2 + 2 * INR k) * powerRZ 2 (-23) * cost data (ll_centers st) (ll_assign st) + INR (length data) * INR dim * powerRZ 2 (-148).
Proof. exact residual_near. Qed.
Print Assumptions C114_residual.

(** C114.  calc_distance adds the squares, as C114_residual asks. *)
Theorem C114_distances : forall dim, adds_squares dim calc_distance.
Proof. exact calc_adds. Qed.
Print Assumptions C114_distances.

(** C114.  There are norms as C114_iteration and C114_run ask for all vectors: the exact sum of squares, its
    root rounded. *)
Theorem C114_norms : forall dim B r, vectors dim B [r] -> B <= powerRZ 2 100 -> norm_near r (exact_nrm2 r).
Proof. exact exact_near. Qed.
Print Assumptions C114_norms.

(** An iteration can raise the objective: from 0 to 1/2 for the points 4096 and 4097 on the centres 4096 and 4097. *)
Theorem C114_never_more_refuted : exists nrm2 ws popf orders data centers assign st, pops popf /\ block_orders 2 1 (min 2 2) orders /\ block_ways_ok 1 ws /\ vectors 1 (powerRZ 2 26) data /\ vectors 1 (powerRZ 2 26) centers /\ (forall r, vectors 1 (powerRZ 2 26) [r] -> norm_near r (nrm2 r)) /\
  lloyd_iter_on nrm2 ws popf 2 3 calc_distance 2 1 2 data orders centers assign = Ok st /\ objective data centers = 0 /\ objective data (ll_centers st) = / 2.
Proof. exact kmeans_up. Qed.
Print Assumptions C114_never_more_refuted.
