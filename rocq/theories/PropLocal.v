(** * Theorems: what a graph search depends on (C134).

    [same_seen]: LocalSpec.v; [same_labels]: LocalSpec2.v; [bucket], [answer_of]: HideSpec.v; [reach], [graph_ok]: GraphSpec.v. *)
From Coq Require Import NArith ZArith String List Arith Bool.
From Verif Require Import Base Float32 PoolModel FilterSpec SortInst SortSpec GraphSpec GreedyModel SearchModel ClosestModel PopInst FlatModel IvfModel LshModel HideSpec LongerCases LocalSpec LocalSpec2 LocalProofs LocalFlat LocalCases.
Import ListNotations.
Open Scope nat_scope.

(** C134.  With the same distances of the points it compared and the same lists of the points it expanded, a search runs the same way to the same end. *)
Theorem C134_seen : forall sortf n dist dist' accept L g g' ids st, greedy_search sortf n dist accept L g ids = Ok st -> same_seen dist dist' g g' st ->
  greedy_search sortf n dist' accept L g' ids = Ok st.
Proof. exact greedy_local. Qed.
Print Assumptions C134_seen.

Example C134_seen_case : seen_of (greedy_search isort 6 road_far (passes_filter plain []) 1 road [0]) = ([2; 1; 0], [1; 0]) /\
  (forall x, In x [2; 1; 0] -> road2_far x = road_far x) /\ (forall x, In x [1; 0] -> nth_error road2 x = nth_error road x) /\
  greedy_search isort 6 road2_far (passes_filter plain []) 1 road2 [0] = greedy_search isort 6 road_far (passes_filter plain []) 1 road [0] /\
  greedy_search isort 6 road2_far (passes_filter plain []) 3 road2 [0] <> greedy_search isort 6 road_far (passes_filter plain []) 3 road [0].
Proof. exact road_case. Qed.

(** C134.  Vamana: distances and lists of points that cannot be reached from the entry points along matching points make no difference, whatever is written there. *)
Theorem C134_search : forall sortf ix dist dist' g' L k filters ind dst, sorts sortf -> 1 <= L -> index_ok ix -> (forall id, is_nan (dist id) = false) -> filters = [] \/ length (pts_to_labels (ix_labels ix)) = ix_n ix ->
  (forall x, reach (acc_of (ix_labels ix) filters) (ix_graph ix) (fun y => In y (vamana_init_ids ix filters)) x -> dist' x = dist x /\ nth_error g' x = nth_error (ix_graph ix) x) ->
  vamana_search sortf (mkI (ix_n ix) (ix_tags ix) (ix_labels ix) (ix_medoids ix) (ix_start ix) g') dist' L k filters ind dst = vamana_search sortf ix dist L k filters ind dst.
Proof. exact vamana_reach. Qed.
Print Assumptions C134_search.

(** C134.  The same for RelativeNG. *)
Theorem C134_rng : forall sortf ix dist dist' g' L k filters ind dst, sorts sortf -> 1 <= L -> index_ok ix -> (forall id, is_nan (dist id) = false) ->
  (forall x, reach (fun _ => true) (ix_graph ix) (fun y => y = ix_start ix) x -> dist' x = dist x /\ nth_error g' x = nth_error (ix_graph ix) x) ->
  rng_search sortf (mkI (ix_n ix) (ix_tags ix) (ix_labels ix) (ix_medoids ix) (ix_start ix) g') dist' L k filters ind dst = rng_search sortf ix dist L k filters ind dst.
Proof. exact rng_reach. Qed.
Print Assumptions C134_rng.

Example C134_reach_case : index_ok isles /\ (forall x, reach (fun _ => true) (ix_graph isles) (fun y => y = ix_start isles) x -> road2_far x = road_far x /\ nth_error isles2 x = nth_error (ix_graph isles) x) /\
  rng_search isort isles road_far 5 2 [] [0; 0] [f32_zero; f32_zero] = Ok ([11; 12], map f32_of_Z [1; 2]%Z, 2) /\
  rng_search isort (mkI 6 (seq 10 6) plain [] 0 isles2) road2_far 5 2 [] [0; 0] [f32_zero; f32_zero] = Ok ([11; 12], map f32_of_Z [1; 2]%Z, 2).
Proof. exact isles_case. Qed.

(** C134.  IVF: lists that are not probed, and points that are in no probed list, make no difference. *)
Theorem C134_ivf : forall popf mbs n tags nc inv inv' lc lc' cdist dist dist' p k filters ind dst probed d,
  compute_closest popf mbs (fun _ => cdist) 1 nc p (one_point_order p) (repeat 0 p) None = Ok (probed, d) ->
  (forall c, In c probed -> nth_error inv' c = nth_error inv c) ->
  (forall c s x, In c probed -> nth_error inv c = Some s -> In x s -> dist' x = dist x /\ same_labels lc lc' x) ->
  ivf_search popf mbs (mkIvf n tags nc inv' lc') cdist dist' p k filters ind dst = ivf_search popf mbs (mkIvf n tags nc inv lc) cdist dist p k filters ind dst.
Proof. exact ivf_local. Qed.
Print Assumptions C134_ivf.

Example C134_ivf_case : compute_closest pop_all 10 (fun _ => far_table [5; 1; 3]%Z) 1 3 2 (one_point_order 2) (repeat 0 2) None = Ok ([1; 2], None) /\
  (forall x, In x [0; 1; 2] -> far_table [6; 2; 1; 0]%Z x = far_table [6; 2; 1; 9]%Z x /\ same_labels inn inn2 x) /\
  ivf_search pop_all 10 (mkIvf 4 [] 3 [[3]; [0; 1]; [2]] inn) (far_table [5; 1; 3]%Z) (far_table [6; 2; 1; 9]%Z) 2 3 ["a"%string] [9; 9; 9] None = Ok ([1; 0; 9], None, 2, 2) /\
  ivf_search pop_all 10 (mkIvf 4 [] 3 [[0; 3; 7]; [0; 1]; [2]] inn2) (far_table [5; 1; 3]%Z) (far_table [6; 2; 1; 0]%Z) 2 3 ["a"%string] [9; 9; 9] None = Ok ([1; 0; 9], None, 2, 2).
Proof. exact inn_case. Qed.

(** C134.  LSH: only the buckets of the query's keys, and the points in them, matter. *)
Theorem C134_lsh : forall dotf n tags nt sz ts ts' lc lc' q dist dist' k filters ind dst,
  Forall2 (fun t t' => t_hps t' = t_hps t /\ bucket t' (get_hash dotf t q) = bucket t (get_hash dotf t q)) ts ts' ->
  (forall t x, In t ts -> In x (bucket t (get_hash dotf t q)) -> dist' x = dist x /\ same_labels lc lc' x) ->
  answer_of (lsh_search dotf (mkLsh n tags lc' nt sz ts') q dist' k filters ind dst) = answer_of (lsh_search dotf (mkLsh n tags lc nt sz ts) q dist k filters ind dst).
Proof. exact lsh_local. Qed.
Print Assumptions C134_lsh.

Example C134_lsh_case : get_hash seq_dot (mkT [] [(0%N, [0; 1]); (5%N, [3])]) [] = 0%N /\
  answer_of (lsh_search seq_dot (mkLsh 4 [] inn 1 0 [mkT [] [(0%N, [0; 1]); (5%N, [3])]]) [] (far_table [6; 2; 1; 9]%Z) 3 ["a"%string] [9; 9; 9] None) = Ok ([1; 0; 9], None, 2, 2) /\
  answer_of (lsh_search seq_dot (mkLsh 4 [] inn2 1 0 [mkT [] [(0%N, [0; 1]); (6%N, [1; 8])]]) [] (far_table [6; 2; 1; 0]%Z) 3 ["a"%string] [9; 9; 9] None) = Ok ([1; 0; 9], None, 2, 2).
Proof. exact inn_lsh. Qed.
