(** * Theorems: labels that all points share (C131).

    [all_match], [all_have], [unlabelled]: ShareSpec.v; [matches], [sorted_labels]: FilterSpec.v. *)
From Coq Require Import NArith ZArith String List Arith Bool.
From Verif Require Import Base Float32 PoolModel FilterSpec SortInst GraphSpec GreedyModel SearchModel PruneModel EntryModel BuildModel VamanaModel BuildWitness ClosestModel PopInst FlatModel IvfModel LshModel
  LongerCases AskCases ShareSpec ShareProofs ShareCases.
Import ListNotations.
Open Scope nat_scope.

(** C131.  IVF: a filter that every point matches changes nothing, neither the answers nor the count of comparisons. *)
Theorem C131_ivf : forall popf mbs ix cdist dist p k filters ind dst r, all_match (ivf_n ix) (ivf_labels ix) filters ->
  (ivf_search popf mbs ix cdist dist p k filters ind dst = Ok r <-> ivf_search popf mbs ix cdist dist p k [] ind dst = Ok r).
Proof. exact ivf_share. Qed.
Print Assumptions C131_ivf.

(** C131.  LSH: the same. *)
Theorem C131_lsh : forall dotf ix q dist k filters ind dst r, all_match (l_n ix) (l_labels ix) filters ->
  (lsh_search dotf ix q dist k filters ind dst = Ok r <-> lsh_search dotf ix q dist k [] ind dst = Ok r).
Proof. exact lsh_share. Qed.
Print Assumptions C131_lsh.

Example C131_flat_case : all_match 4 crowd_labels ["a"%string] /\
  ivf_search pop_all 10 crowd (far_table [5; 7]%Z) (far_table [10; 7; 12; 9]%Z) 2 3 ["a"%string] [9; 9; 9] None = Ok ([1; 3; 0], None, 3, 4) /\
  ivf_search pop_all 10 crowd (far_table [5; 7]%Z) (far_table [10; 7; 12; 9]%Z) 2 3 ["b"%string] [9; 9; 9] None = Ok ([3; 2; 9], None, 2, 2) /\
  ask_crowd ["a"%string] = Ok ([1; 0; 2], None, 3, 3).
Proof. exact crowd_case. Qed.

(** C131.  Vamana: a search with a label of all points is the search without filter from the entry point of the label. *)
Theorem C131_search : forall sortf ix dist L k x m ind dst r, all_match (ix_n ix) (ix_labels ix) [x] -> medoid_of (ix_medoids ix) x = Some m ->
  vamana_search sortf ix dist L k [x] ind dst = Ok r ->
  vamana_search sortf (mkI (ix_n ix) (ix_tags ix) (ix_labels ix) (ix_medoids ix) m (ix_graph ix)) dist L k [] ind dst = Ok r.
Proof. exact vamana_share. Qed.
Print Assumptions C131_search.

(** C131.  A build whose points all have one label, the same, makes the graph that a build without labels makes from the entry point of the label, on every schedule, and searches with the label give the answers of that index. *)
Theorem C131_build : forall v lc centroid work x ix md m, sp_filtered (vi_sp v) = true -> all_have (sp_n (vi_sp v)) (sp_labels (vi_sp v)) x ->
  vamana_build v = Ok (ix, md) -> medoid_of (ix_medoids ix) x = Some m -> calculate_medoid (sp_n (vi_sp v)) centroid = Ok m ->
  exists ix', vamana_build (mkV (vi_sort v) (unlabelled (vi_sp v) lc) (vi_prm v) (vi_tags v) centroid work (vi_sched v) (vi_order v)) = Ok (ix', md) /\
    ix_graph ix' = ix_graph ix /\ ix_start ix' = m /\
    forall dist L k ind dst r, vamana_search (vi_sort v) ix dist L k [x] ind dst = Ok r -> vamana_search (vi_sort v) ix' dist L k [] ind dst = Ok r.
Proof. exact build_share. Qed.
Print Assumptions C131_build.

Example C131_build_case : sp_filtered (vi_sp town_input) = true /\ all_have (sp_n (vi_sp town_input)) (sp_labels (vi_sp town_input)) "a"%string /\
  vamana_build town_input = Ok (town_index, 3) /\ medoid_of (ix_medoids town_index) "a"%string = Some 10 /\
  calculate_medoid (sp_n (vi_sp town_input)) (map (town_far 34) (seq 0 12)) = Ok 10 /\
  vamana_search isort town_index (town_far 10) 3 2 ["a"%string] [0; 0] [f32_zero; f32_zero] = Ok ([104; 103], [f32_of_Z 1; f32_of_Z 1], 2).
Proof. exact town_case. Qed.

(** Not the graph of the build without labels of the same points, though: that one starts next to the centroid. *)
Theorem C131_same_start_refuted : vamana_build town_input = Ok (town_index, 3) /\ all_have 12 (ix_labels town_index) "a"%string /\
  vamana_build (mkV (vi_sort town_input) (unlabelled (vi_sp town_input) no_labels) (vi_prm town_input) (vi_tags town_input) (vi_centroid town_input) [] (vi_sched town_input) (vi_order town_input)) =
    Ok (mkI 12 (seq 100 12) no_labels [] 5 [[5; 1]; [0; 5; 2]; [1; 5; 3]; [2; 5; 4]; [3; 5]; [4; 4; 6]; [5; 7]; [6; 8; 10]; [7; 9]; [8; 10]; [9; 7; 11]; [10]], 3).
Proof. exact town_other. Qed.
Print Assumptions C131_same_start_refuted.
