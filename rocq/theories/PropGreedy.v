(** * Theorems: greedy graph search (C04, C05, C06, C07).

    In all of them: [sortf] is any function that sorts, [n] the number of points,
    [dist id] the distance of the query to point id, [accept]/[acc] the filter
    test, [L] the list size, [g] the graph; [gs i] is the graph seen by iteration
    i (other threads may change it between iterations). *)
From Coq Require Import ZArith List Arith Lia Bool Sorting.Sorted.
From Verif Require Import Base Float32 PoolModel TopKSpec SortSpec GraphSpec GreedyModel SortInst GreedyProofs.
Import ListNotations.

(** C04.  The search ends within (n + 1) (L + 1) iterations (any larger budget
    gives the same result), after at most as many hops as there are distinct
    nodes discovered, and that is at most n. *)
Theorem C04_greedy_terminates : forall sortf n dist accept acc L gs init_ids,
  sorts sortf -> 1 <= L -> (forall id, is_nan (dist id) = false) ->
  (forall id, id < n -> accept id = Ok (acc id)) -> (forall i, graph_ok n (gs i)) ->
  (forall id, In id init_ids -> id < n) ->
  exists st0 st, greedy_init sortf n dist L init_ids = Ok st0 /\
    (forall budget, (n + 1) * (L + 1) <= budget -> greedy_loop budget n dist accept L gs 0 st0 = Ok st) /\
    greedy_search_dyn sortf n dist accept L gs init_ids = Ok st /\
    greedy_running st = false /\
    g_hops st <= length (p_ins (g_pool st)) /\
    NoDup (p_ins (g_pool st)) /\ length (p_ins (g_pool st)) <= n.
Proof. exact greedy_terminates. Qed.
Print Assumptions C04_greedy_terminates.

(** C05.  Every returned candidate was expanded, and every accepted out-neighbour
    of an expanded node is returned or is not nearer than any candidate of a full
    list. *)
Theorem C05_greedy_fixed_point : forall sortf n dist accept acc L g init_ids,
  sorts sortf -> 1 <= L -> (forall id, is_nan (dist id) = false) ->
  (forall id, id < n -> accept id = Ok (acc id)) -> graph_ok n g ->
  (forall id, In id init_ids -> id < n) ->
  exists st, greedy_search sortf n dist accept L g init_ids = Ok st /\
    (forall z, In z (found st) -> In (nid z) (map nid (g_exp st))) /\
    (forall x y, In x (map nid (g_exp st)) -> edge acc g x y ->
       In y (map nid (found st)) \/
       (length (found st) = L /\ forall z, In z (found st) -> fle (ndist z) (dist y) = true)).
Proof. exact greedy_fixed_point. Qed.
Print Assumptions C05_greedy_fixed_point.

(** C06.  Sorted and without repetition, also while other threads change the graph. *)
Theorem C06_greedy_sorted_distinct : forall sortf n dist accept acc L gs init_ids,
  sorts sortf -> 1 <= L -> (forall id, is_nan (dist id) = false) ->
  (forall id, id < n -> accept id = Ok (acc id)) -> (forall i, graph_ok n (gs i)) ->
  (forall id, In id init_ids -> id < n) ->
  exists st, greedy_search_dyn sortf n dist accept L gs init_ids = Ok st /\
    StronglySorted (fun x y => fle (ndist x) (ndist y) = true) (found st) /\
    NoDup (map nid (found st)).
Proof. exact greedy_sorted_distinct. Qed.
Print Assumptions C06_greedy_sorted_distinct.

(** C07.  Every candidate is an indexed point, reachable from the initial ids
    along accepted edges, with its own distance. *)
Theorem C07_greedy_true_distances : forall sortf n dist accept acc L g init_ids,
  sorts sortf -> 1 <= L -> (forall id, is_nan (dist id) = false) ->
  (forall id, id < n -> accept id = Ok (acc id)) -> graph_ok n g ->
  (forall id, In id init_ids -> id < n) ->
  exists st, greedy_search sortf n dist accept L g init_ids = Ok st /\
    forall z, In z (found st) -> nid z < n /\ ndist z = dist (nid z) /\
      reach acc g (fun x => In x init_ids) (nid z).
Proof. exact greedy_true_distances. Qed.
Print Assumptions C07_greedy_true_distances.

(** A concrete case: a cycle with chords, a self loop and a duplicate edge. *)
Definition ex_graph : graph := [[1; 1; 0]; [2; 4]; [3; 0]; [4; 2]; [5]; [0; 3]].
Definition ex_dist (id : nat) : f32 := f32_of_Z (Z.of_nat ((id * 5 + 3) mod 7)).

Example greedy_case_hyps :
  sorts isort /\ graph_ok 6 ex_graph /\ (forall id, is_nan (ex_dist id) = false) /\
  (forall id, id < 6 -> (fun _ => @Ok bool true) id = Ok ((fun _ => true) id)).
Proof.
  split; [exact isort_sorts|]. split; [|split; auto].
  - split; [reflexivity|]. intros x nbrs y H.
    do 6 (destruct x as [|x]; [cbn in H; inversion H; subst; cbn; intuition lia|]). destruct x; discriminate.
  - intros id. unfold ex_dist.
    assert (H : (id * 5 + 3) mod 7 < 7) by (apply Nat.mod_upper_bound; lia).
    revert H. generalize ((id * 5 + 3) mod 7). intros k H.
    do 7 (destruct k as [|k]; [reflexivity|]). lia.
Qed.

Example greedy_case_run :
  match greedy_search isort 6 ex_dist (fun _ => Ok true) 3 ex_graph [0] with
  | Ok st => map nid (found st) = [5; 1; 4] /\ g_hops st = 4
  | _ => False
  end.
Proof. vm_compute. auto. Qed.
