(** * Theorems: search entry points of Vamana and RelativeNG (C04, C08, C09, C10).

    [ix] is any well-formed index ([index_ok]: valid edges, entry points and one
    tag per point), [dist id] the distance of the query to point id, [indices] and
    [distances] the caller's buffers before the call. *)
From Coq Require Import ZArith String List Arith Lia Bool Sorting.Sorted.
From Verif Require Import Base Float32 PoolModel TopKSpec SortSpec GraphSpec FilterSpec GreedyModel SearchSpec SearchModel
  SortInst GreedyProofs SearchProofs AcceptProofs PropGreedy.
Import ListNotations.

(** C04.  The list size must be at least one: with L = 0 the search of any node
    that has a neighbour other than itself writes past its candidate list. *)
Theorem C04_list_size_zero_refuted : forall sortf n dist g s nbrs y,
  sortf [mkN s (dist s) true] = [mkN s (dist s) true] -> s < n ->
  nth_error g s = Some nbrs -> In y nbrs -> y <> s -> (forall z, In z nbrs -> z < n) ->
  greedy_search sortf n dist (fun _ => Ok true) 0 g [s] = UB.
Proof. exact greedy_zero_ub. Qed.
Print Assumptions C04_list_size_zero_refuted.

Example C04_list_size_zero_case :
  greedy_search isort 6 ex_dist (fun _ => Ok true) 0 ex_graph [0] = UB.
Proof. vm_compute. reflexivity. Qed.

(** C08.  The candidates [ids] are a fixed point of greedy search from the entry point
    (or the entry points of the filter labels).  The count is min(res_count,
    candidates); exactly the first res_count slots may change; the slots below the
    count hold the candidates in order. *)
Theorem C08_vamana_search : forall sortf ix dist L res_count filters indices distances,
  sorts sortf -> index_ok ix -> 1 <= L -> (forall id, is_nan (dist id) = false) ->
  (filters = [] \/ length (pts_to_labels (ix_labels ix)) = ix_n ix) ->
  res_count <= L + 1 -> res_count <= length indices -> res_count <= length distances ->
  exists acc starts ids indices' distances',
    filter_test (universal_of (ix_labels ix)) (pts_to_labels (ix_labels ix)) filters acc /\
    (filters = [] -> starts = [ix_start ix]) /\
    (filters <> [] -> length starts <= length filters /\
       forall id, In id starts <-> exists x, In x filters /\ medoid_of (ix_medoids ix) x = Some id) /\
    greedy_answer acc dist (ix_graph ix) starts L ids /\
    vamana_search sortf ix dist L res_count filters indices distances =
      Ok (indices', distances', min res_count (length ids)) /\
    same_from res_count indices' indices /\ same_from res_count distances' distances /\
    reports (ix_n ix) (ix_tags ix) dist indices' distances' (firstn res_count ids).
Proof. exact vamana_search_answer. Qed.
Print Assumptions C08_vamana_search.

(** C08, RelativeNG: the same from its entry point, without filter. *)
Theorem C08_rng_search : forall sortf ix dist L res_count filters indices distances,
  sorts sortf -> index_ok ix -> 1 <= L -> (forall id, is_nan (dist id) = false) ->
  res_count <= L + 1 -> res_count <= length indices -> res_count <= length distances ->
  exists ids indices' distances',
    greedy_answer (fun _ => true) dist (ix_graph ix) [ix_start ix] L ids /\
    rng_search sortf ix dist L res_count filters indices distances =
      Ok (indices', distances', min res_count (length ids)) /\
    same_from res_count indices' indices /\ same_from res_count distances' distances /\
    reports (ix_n ix) (ix_tags ix) dist indices' distances' (firstn res_count ids).
Proof. exact rng_search_answer. Qed.
Print Assumptions C08_rng_search.

(** C08.  Asking for more than L + 1 results reads past the candidate list. *)
Theorem C08_vamana_search_past_list : forall sortf ix dist L res_count filters indices distances,
  sorts sortf -> index_ok ix -> 1 <= L -> (forall id, is_nan (dist id) = false) ->
  (filters = [] \/ length (pts_to_labels (ix_labels ix)) = ix_n ix) ->
  L + 1 < res_count ->
  vamana_search sortf ix dist L res_count filters indices distances = UB.
Proof. exact vamana_search_past. Qed.
Print Assumptions C08_vamana_search_past_list.

(** C09.  Slot i of the results holds the tag and the distance of one and the same
    point, the points are distinct and in order. *)
Theorem C09_vamana_tags : forall sortf ix dist L res_count filters indices distances,
  sorts sortf -> index_ok ix -> 1 <= L -> (forall id, is_nan (dist id) = false) ->
  (filters = [] \/ length (pts_to_labels (ix_labels ix)) = ix_n ix) ->
  res_count <= L + 1 -> res_count <= length indices -> res_count <= length distances ->
  exists indices' distances' ids,
    vamana_search sortf ix dist L res_count filters indices distances = Ok (indices', distances', length ids) /\
    length ids <= res_count /\
    same_from res_count indices' indices /\ same_from res_count distances' distances /\
    reports (ix_n ix) (ix_tags ix) dist indices' distances' ids.
Proof. exact graph_search_tags. Qed.
Print Assumptions C09_vamana_tags.

(** C09, RelativeNG: the same, and the filter argument has no effect at all. *)
Theorem C09_rng_tags : forall sortf ix dist L res_count filters indices distances,
  sorts sortf -> index_ok ix -> 1 <= L -> (forall id, is_nan (dist id) = false) ->
  res_count <= L + 1 -> res_count <= length indices -> res_count <= length distances ->
  exists indices' distances' ids,
    rng_search sortf ix dist L res_count filters indices distances = Ok (indices', distances', length ids) /\
    length ids <= res_count /\
    same_from res_count indices' indices /\ same_from res_count distances' distances /\
    reports (ix_n ix) (ix_tags ix) dist indices' distances' ids.
Proof. exact rng_search_tags. Qed.
Print Assumptions C09_rng_tags.

(** C09.  The constructor: n tags are taken as they are, no tags means the
    identity, any other number is refused. *)
Theorem C09_constructor_tags : forall n tags,
  (length tags = n -> 1 <= n -> make_tags n tags = Ok tags) /\
  (exists t, make_tags n [] = Ok t /\ length t = n /\ forall i, i < n -> nth_error t i = Some i) /\
  (length tags <> n -> length tags <> 0 -> make_tags n tags = Throw).
Proof. exact make_tags_ok. Qed.
Print Assumptions C09_constructor_tags.

(** C10.  A reported point is the entry point of one of the filter labels or
    matches the filter. *)
Theorem C10_vamana_filtered : forall sortf ix dist L res_count filters indices distances,
  sorts sortf -> index_ok ix -> 1 <= L -> (forall id, is_nan (dist id) = false) ->
  length (pts_to_labels (ix_labels ix)) = ix_n ix -> filters <> [] ->
  res_count <= L + 1 -> res_count <= length indices -> res_count <= length distances ->
  exists indices' distances' ids,
    vamana_search sortf ix dist L res_count filters indices distances = Ok (indices', distances', length ids) /\
    reports (ix_n ix) (ix_tags ix) dist indices' distances' ids /\
    forall id labels, In id ids -> nth_error (pts_to_labels (ix_labels ix)) id = Some labels ->
      (exists x, In x filters /\ medoid_of (ix_medoids ix) x = Some id) \/
      matches (universal_of (ix_labels ix)) filters labels.
Proof. exact vamana_search_filtered. Qed.
Print Assumptions C10_vamana_filtered.

(** C10.  With entry points that carry their label (which build guarantees, C26),
    every reported point matches the filter. *)
Theorem C10_vamana_matching : forall sortf ix dist L res_count filters indices distances,
  sorts sortf -> index_ok ix -> 1 <= L -> (forall id, is_nan (dist id) = false) ->
  length (pts_to_labels (ix_labels ix)) = ix_n ix -> filters <> [] ->
  (forall x id labels, medoid_of (ix_medoids ix) x = Some id ->
     nth_error (pts_to_labels (ix_labels ix)) id = Some labels ->
     matches (universal_of (ix_labels ix)) [x] labels) ->
  res_count <= L + 1 -> res_count <= length indices -> res_count <= length distances ->
  exists indices' distances' ids,
    vamana_search sortf ix dist L res_count filters indices distances = Ok (indices', distances', length ids) /\
    reports (ix_n ix) (ix_tags ix) dist indices' distances' ids /\
    forall id labels, In id ids -> nth_error (pts_to_labels (ix_labels ix)) id = Some labels ->
      matches (universal_of (ix_labels ix)) filters labels.
Proof. exact vamana_search_matching. Qed.
Print Assumptions C10_vamana_matching.

(** A concrete case: six points, tags 100.., labels a and b and the universal
    label 0, entry points 1 for a and 4 for b. *)
Open Scope string_scope.
Definition ex_index : gindex :=
  mkI 6 [100; 101; 102; 103; 104; 105]
    (mkL [["b"]; ["a"]; ["a"; "b"]; ["0"]; ["b"]; ["b"]] true "0")
    [("a", 1); ("b", 4)] 0 ex_graph.

Example search_case_hyps :
  index_ok ex_index /\ length (pts_to_labels (ix_labels ex_index)) = ix_n ex_index /\
  (forall x id labels, medoid_of (ix_medoids ex_index) x = Some id ->
     nth_error (pts_to_labels (ix_labels ex_index)) id = Some labels ->
     matches (universal_of (ix_labels ex_index)) [x] labels).
Proof.
  split; [split; [cbn; lia|split; [apply greedy_case_hyps|split; [reflexivity|split; [cbn; lia|]]]]|split; [reflexivity|]].
  - intros x id [H|[H|[]]]; inversion H; cbn; lia.
  - intros x id labels H Hl. cbn in H.
    destruct (String.eqb x "a") eqn:Ea; [apply String.eqb_eq in Ea; subst x|].
    + inversion H; subst id. cbn in Hl. inversion Hl. right. left. exists "a". cbn. auto.
    + destruct (String.eqb x "b") eqn:Eb; [apply String.eqb_eq in Eb; subst x|discriminate].
      inversion H; subst id. cbn in Hl. inversion Hl. right. left. exists "b". cbn. auto.
Qed.

Example search_case_run :
  match vamana_search isort ex_index ex_dist 3 2 ["a"] [0; 0; 7] [f32_zero; f32_zero; f32_zero] with
  | Ok (ind, _, cnt) => ind = [101; 103; 7] /\ cnt = 2
  | _ => False
  end.
Proof. vm_compute. auto. Qed.
