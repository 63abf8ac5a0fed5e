(** * Theorems: a filtered search depends on the matching points only (C133).

    [agree], [point_matches], [same_among], [same_table]: HideSpec.v; [matches]: FilterSpec.v. *)
From Coq Require Import NArith ZArith String List Arith Bool.
From Verif Require Import Base Float32 PoolModel FilterSpec SortInst SortSpec GraphSpec GreedyModel SearchModel PopInst ClosestModel FlatModel IvfModel LshModel LongerCases AskCases HideSpec HideProofs HideCases.
Import ListNotations.
Open Scope nat_scope.

(** C133.  Vamana: coordinates, labels and edges of points that do not match, edges to them, and the start node make no difference. *)
Theorem C133_search : forall sortf n tags lc lc' medoids start start' g g' dist dist' L k filters ind dst, sorts sortf -> 1 <= L -> filters <> [] -> agree n filters lc lc' dist dist' ->
  (forall id, id < n -> point_matches lc filters id -> is_nan (dist id) = false) -> graph_ok n g -> graph_ok n g' ->
  (forall id l l', point_matches lc filters id -> nth_error g id = Some l -> nth_error g' id = Some l' -> same_among (point_matches lc filters) l l') ->
  (forall x id, In x filters -> medoid_of medoids x = Some id -> id < n /\ point_matches lc filters id) ->
  vamana_search sortf (mkI n tags lc medoids start g) dist L k filters ind dst = vamana_search sortf (mkI n tags lc' medoids start' g') dist' L k filters ind dst.
Proof. exact vamana_hide. Qed.
Print Assumptions C133_search.

Example C133_search_case : agree 6 a_only day night day_far night_far /\ graph_ok 6 day_graph /\ graph_ok 6 night_graph /\
  (forall id l l', point_matches day a_only id -> nth_error day_graph id = Some l -> nth_error night_graph id = Some l' -> same_among (point_matches day a_only) l l') /\
  (forall x id, In x a_only -> medoid_of [("a"%string, 1)] x = Some id -> id < 6 /\ point_matches day a_only id) /\
  vamana_search isort (mkI 6 (seq 10 6) day [("a"%string, 1)] 0 day_graph) day_far 3 3 a_only [0; 0; 0] (repeat f32_zero 3) = Ok ([13; 11; 12], map f32_of_Z [2; 4; 7]%Z, 3) /\
  vamana_search isort (mkI 6 (seq 10 6) night [("a"%string, 1)] 2 night_graph) night_far 3 3 a_only [0; 0; 0] (repeat f32_zero 3) = Ok ([13; 11; 12], map f32_of_Z [2; 4; 7]%Z, 3) /\
  vamana_search isort (mkI 6 (seq 10 6) day [("a"%string, 1)] 0 day_graph) day_far 3 3 [] [0; 0; 0] (repeat f32_zero 3) <>
  vamana_search isort (mkI 6 (seq 10 6) night [("a"%string, 1)] 0 night_graph) night_far 3 3 [] [0; 0; 0] (repeat f32_zero 3).
Proof. exact day_search. Qed.

(** C133.  IVF: the same, with the number of comparisons, for lists that hold the same matching points. *)
Theorem C133_ivf : forall popf mbs n tags tags' nc inv inv' lc lc' cdist dist dist' p k filters ind dst, agree n filters lc lc' dist dist' ->
  Forall2 (same_among (point_matches lc filters)) inv inv' -> (forall l x, In l inv \/ In l inv' -> In x l -> x < n) ->
  ivf_search popf mbs (mkIvf n tags nc inv lc) cdist dist p k filters ind dst = ivf_search popf mbs (mkIvf n tags' nc inv' lc') cdist dist' p k filters ind dst.
Proof. exact ivf_hide. Qed.
Print Assumptions C133_ivf.

Example C133_ivf_case : agree 6 a_only day night day_far night_far /\ Forall2 (same_among (point_matches day a_only)) day_lists night_lists /\
  ivf_search pop_all 10 (mkIvf 6 [] 2 day_lists day) (far_table [5; 7]%Z) day_far 2 3 a_only [9; 9; 9] None = Ok ([3; 1; 2], None, 3, 4) /\
  ivf_search pop_all 10 (mkIvf 6 [] 2 night_lists night) (far_table [5; 7]%Z) night_far 2 3 a_only [9; 9; 9] None = Ok ([3; 1; 2], None, 3, 4).
Proof. exact day_ivf. Qed.

(** C133.  LSH: the same, for tables that hold the same matching points under every key. *)
Theorem C133_lsh : forall dotf n tags tags' nt sz ts ts' lc lc' q dist dist' k filters ind dst, agree n filters lc lc' dist dist' ->
  Forall2 (same_table (point_matches lc filters)) ts ts' -> (forall t i x, In t ts \/ In t ts' -> In x (bucket t i) -> x < n) ->
  answer_of (lsh_search dotf (mkLsh n tags lc nt sz ts) q dist k filters ind dst) = answer_of (lsh_search dotf (mkLsh n tags' lc' nt sz ts') q dist' k filters ind dst).
Proof. exact lsh_hide. Qed.
Print Assumptions C133_lsh.

Example C133_lsh_case : Forall2 (same_table (point_matches day a_only)) [mkT [] [(0%N, [0; 4; 3])]] [mkT [] [(0%N, [5; 0; 3])]] /\
  answer_of (lsh_search seq_dot (mkLsh 6 [] day 1 0 [mkT [] [(0%N, [0; 4; 3])]]) [] day_far 3 a_only [9; 9; 9] None) = Ok ([3; 0; 9], None, 2, 2) /\
  answer_of (lsh_search seq_dot (mkLsh 6 [] night 1 0 [mkT [] [(0%N, [5; 0; 3])]]) [] night_far 3 a_only [9; 9; 9] None) = Ok ([3; 0; 9], None, 2, 2).
Proof. exact day_lsh. Qed.
